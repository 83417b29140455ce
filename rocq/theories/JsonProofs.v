(** Proofs about JSON: reading. *)
From Coq Require Import String.
From Verif Require Import Base CStr CStrSpec CStrProofs CStrProofs2 Num NumSpec Print PrintSpec Node Json NodeProofs UriProofs JsonSpec.

(** ** characters *)
Lemma eqb_no a b : a <> b -> (a =? b) = false.
Proof. apply Z.eqb_neq. Qed.
Lemma strchr_no l c : c <> 0 -> ~ In c l -> strchr l c = false.
Proof.
  intros N I. unfold strchr. rewrite (eqb_no c 0) by easy. cbn [orb]. apply not_true_iff_false. intros E. apply existsb_exists in E. destruct E as (y & Iy & E). apply Z.eqb_eq in E. now subst y.
Qed.
Lemma strchr_yes l c : In c l -> strchr l c = true.
Proof. intros I. unfold strchr. apply orb_true_iff. right. apply existsb_exists. exists c. split; [easy|apply Z.eqb_refl]. Qed.
Lemma space_white c : char_is_space c = true <-> white c.
Proof. unfold char_is_space, white. cbn [In]. rewrite !orb_true_iff, !Z.eqb_eq. intuition lia. Qed.
Lemma not_space c : ~ white c -> char_is_space c = false.
Proof. intros N. apply not_true_iff_false. now rewrite space_white. Qed.
Lemma letter_alpha c : char_is_alpha c = true <-> letter c.
Proof. unfold char_is_alpha, letter. rewrite orb_true_iff, !andb_true_iff, !Z.leb_le. easy. Qed.
Lemma not_alpha c : ~ letter c -> char_is_alpha c = false.
Proof. intros N. apply not_true_iff_false. now rewrite letter_alpha. Qed.

(** ** blanks *)
(** a character that is neither a blank nor the start of a comment *)
Definition solid (c : Z) : Prop := ~ white c /\ c <> 47.
Lemma prefix_no s c d : c <> 47 -> has_prefix (c :: s) [47; d; 0] = Some false.
Proof. intros N. cbn [has_prefix]. change (47 =? 0) with false. cbn match. now rewrite eqb_no. Qed.
Lemma skip_line s x : cstring s -> ~ In 10 s -> str_skip (s ++ 10 :: x) 10 = Some (List.length s).
Proof.
  induction s as [|c s IH]; intros C N; cbn [app str_skip]; [reflexivity|]. inversion C; subst. rewrite (eqb_no c 0), (eqb_no c 10) by (try (intros ->; apply N; now left); lia). cbn [negb andb].
  rewrite IH; [reflexivity|easy|]. intros I. apply N. now right.
Qed.
Lemma trim_gap nl g : gap nl g -> forall f c rest, (List.length g < f)%nat -> solid c \/ (nl = false /\ c = 10) ->
  trim_loop f (g ++ c :: rest) (negb nl) = Some (List.length g).
Proof.
  induction 1 as [|w g W Nl G IH|s g Cs Ns G IH]; intros f c rest L Sd; (destruct f as [|f]; [lia|]); cbn [app].
  - cbn [trim_loop]. assert (c <> 47) by (destruct Sd as [(_ & Sd)|(_ & ->)]; [easy|lia]). rewrite !prefix_no by easy. cbn [obind rd nth_error].
    destruct Sd as [(Sd & _)|(-> & ->)]; [|reflexivity]. rewrite not_space by easy. cbn [negb]. destruct ((c =? 10) && negb nl); reflexivity.
  - cbn [trim_loop]. assert (w <> 47 /\ w <> 0) as (W7 & W0) by (unfold white in W; cbn [In] in W; lia). rewrite !prefix_no by easy. cbn [obind rd nth_error].
    assert (E : (w =? 10) && negb nl = false) by (destruct Nl as [->|Nl]; [apply andb_false_r|now rewrite eqb_no]). rewrite E. apply space_white in W. rewrite W. cbn [negb]. rewrite (eqb_no w 0) by easy.
    change (skipn 1 (w :: g ++ c :: rest)) with (g ++ c :: rest). cbn [List.length] in L. rewrite IH by (easy || lia). reflexivity.
  - cbn [trim_loop]. cbn [has_prefix]. change (47 =? 0) with false. change (47 =? 47) with true. change (0 =? 0) with true. cbn match. cbn [obind].
    assert (E : str_skip (47 :: 47 :: (s ++ 10 :: g) ++ c :: rest) 10 = Some (S (S (List.length s)))).
    { pose proof (skip_line (47 :: 47 :: s) (g ++ c :: rest)) as E. cbn [app List.length] in E. rewrite <- app_assoc. cbn [app]. apply E; [repeat constructor; try lia; exact Cs|]. intros [I|[I|I]]; easy. }
    rewrite E. cbn [obind].
    assert (R : forall k, rd (47 :: 47 :: (s ++ 10 :: g) ++ c :: rest) (S (S k)) = rd ((s ++ 10 :: g) ++ c :: rest) k) by reflexivity. rewrite R.
    rewrite <- app_assoc. cbn [app]. rewrite rd_at. cbn [obind]. change (10 =? 0) with false. cbn match.
    assert (K : skipn (S (S (S (List.length s)))) (47 :: 47 :: s ++ 10 :: g ++ c :: rest) = g ++ c :: rest).
    { change (skipn (S (S (S (List.length s)))) (47 :: 47 :: s ++ 10 :: g ++ c :: rest)) with (skipn (S (List.length s)) (s ++ 10 :: g ++ c :: rest)).
      replace (S (List.length s)) with (List.length (s ++ [10])) by (rewrite app_length; cbn; lia). replace (s ++ 10 :: g ++ c :: rest) with ((s ++ [10]) ++ g ++ c :: rest) by (rewrite <- app_assoc; reflexivity). apply skipn_len. }
    rewrite K. cbn [List.length] in L. rewrite app_length in L. cbn [List.length] in L. rewrite IH by (easy || lia). cbn [obind List.length]. f_equal. rewrite app_length. cbn [List.length]. lia.
Qed.
Lemma trim_ok pre g c rest : gap true g -> solid c -> json_trim (pre ++ g ++ c :: rest) (List.length pre) false = Some (List.length pre + List.length g)%nat.
Proof.
  intros G Sd. unfold json_trim. rewrite skipn_len. pose proof (trim_gap true g G) as T. cbn [negb] in T. rewrite T; [reflexivity| |now left]. rewrite app_length. cbn [List.length]. lia.
Qed.
Lemma trim_catch_ok pre g c rest : gap false g -> solid c \/ c = 10 -> json_trim (pre ++ g ++ c :: rest) (List.length pre) true = Some (List.length pre + List.length g)%nat.
Proof.
  intros G Sd. unfold json_trim. rewrite skipn_len. pose proof (trim_gap false g G) as T. cbn [negb] in T. rewrite T; [reflexivity| |destruct Sd; [now left|now right]]. rewrite app_length. cbn [List.length]. lia.
Qed.
(** trimming twice *)
Lemma trim_idem : forall f s n, trim_loop f s false = Some n -> trim_loop (S (List.length (skipn n s))) (skipn n s) false = Some O.
Proof.
  induction f as [|f IH]; intros s n H; [discriminate|]. cbn [trim_loop] in H.
  assert (NX : forall k m, (c <- rd s k ;; if c =? 0 then None else n <- trim_loop f (skipn (S k) s) false ;; Some (S k + n)%nat) = Some m ->
    trim_loop (S (List.length (skipn m s))) (skipn m s) false = Some O).
  { intros k m E. destruct (rd s k) as [c|]; [|discriminate]. cbn [obind] in E. destruct (c =? 0); [discriminate|].
    destruct (trim_loop f (skipn (S k) s) false) as [j|] eqn:T; [|discriminate]. cbn [obind] in E. injection E as <-. apply IH in T.
    replace (skipn j (skipn (S k) s)) with (skipn (S k + j) s) in T; [exact T|]. clear. revert s. generalize (S k). induction n as [|n IH]; intros s; [easy|]. destruct s as [|x s]; [cbn; destruct j; reflexivity|]. cbn [skipn Nat.add]. apply IH. }
  destruct (has_prefix s [47; 47; 0]) as [[|]|] eqn:P1; cbn [obind] in H; try discriminate.
  - destruct (str_skip s 10) as [e|]; [|discriminate]. cbn [obind] in H. now apply NX in H.
  - destruct (has_prefix s [47; 42; 0]) as [[|]|] eqn:P2; cbn [obind] in H; try discriminate.
    + destruct (str_skip (skipn 2 s) 42) as [e|]; [|discriminate]. cbn [obind] in H. destruct (rd s (2 + e)) as [c|]; [|discriminate]. cbn [obind] in H.
      destruct (if c =? 0 then Some false else d <- rd s (S (2 + e)) ;; Some (d =? 47)) as [ends|]; [|discriminate]. cbn [obind] in H. now apply NX in H.
    + destruct (rd s 0) as [c|] eqn:R; [|discriminate]. cbn [obind] in H. rewrite andb_false_r in H. destruct (negb (char_is_space c)) eqn:Sp; [|apply (NX O); rewrite R; exact H].
      injection H as <-. cbn [skipn]. cbn [trim_loop]. rewrite P1, P2, R. cbn [obind]. rewrite andb_false_r, Sp. reflexivity.
Qed.
Lemma trim_twice text p q : json_trim text p false = Some q -> json_trim text q false = Some q.
Proof.
  unfold json_trim. intros H. destruct (trim_loop (S (List.length (skipn p text))) (skipn p text) false) as [n|] eqn:T; [|discriminate]. cbn [obind] in H. injection H as <-. apply trim_idem in T.
  replace (skipn n (skipn p text)) with (skipn (p + n) text) in T.
  - rewrite T. cbn [obind]. now rewrite Nat.add_0_r.
  - clear. revert text. induction p as [|p IH]; intros s; [easy|]. destruct s as [|x s]; [cbn; destruct n; reflexivity|]. cbn [skipn Nat.add]. apply IH.
Qed.

(** ** strings *)
Lemma skip_literal_loop_ok q x : q <> 0 -> q <> 92 -> forall s prev, cstring s -> (forall k, nth_error s k = Some q -> nth_error (prev :: s) k = Some 92) -> last (prev :: s) 0 <> 92 ->
  skip_literal_loop (s ++ q :: x) prev q = Some (List.length s).
Proof.
  intros Q0 Q2. induction s as [|c s IH]; intros prev C B E; cbn [app skip_literal_loop].
  - rewrite (eqb_no q 0), Z.eqb_refl by easy. cbn [last] in E. rewrite (eqb_no prev 92) by easy. reflexivity.
  - inversion C; subst.
    assert (T : (negb (c =? 0) && negb (c =? q)) || ((c =? q) && (prev =? 92)) = true).
    { rewrite (eqb_no c 0) by lia. cbn [negb andb]. destruct (Z.eqb_spec c q) as [->|]; [|reflexivity]. specialize (B O eq_refl). cbn in B. injection B as ->. reflexivity. }
    rewrite T, IH; [reflexivity|easy| |].
    + intros k K. exact (B (S k) K).
    + destruct s; exact E.
Qed.
Lemma last_app {A} (r : list A) a d : last (r ++ [a]) d = a.
Proof. induction r as [|x r IH]; [easy|]. cbn [app last]. destruct (r ++ [a]) eqn:E; [now destruct r|exact IH]. Qed.
Lemma skip_literal_ok q s x : q <> 0 -> q <> 92 -> literal q s -> str_skip_literal (s ++ q :: x) q = Some (List.length s).
Proof.
  intros Q0 Q2 (C & B & E). destruct s as [|c s]; cbn [app str_skip_literal].
  - rewrite Z.eqb_refl, orb_true_r. reflexivity.
  - inversion C; subst. destruct (Z.eqb_spec c q) as [->|N].
    + exfalso. destruct (B O eq_refl) as (j & J & _). discriminate.
    + rewrite (eqb_no c 0) by lia. cbn [orb]. rewrite skip_literal_loop_ok; [reflexivity|easy|easy|easy| |].
      * intros k K. destruct (B (S k) K) as (j & J & Nj). injection J as <-. exact Nj.
      * intros L. apply (E (removelast (c :: s))). rewrite <- L. apply app_removelast_last. discriminate.
Qed.

(** ** views of values *)
Definition view_value (text : list Z) (v : value ptr) : option (value (list Z)) :=
  match v with
  | VNone => Some VNone
  | VStr m x => x <- string_opt text x ;; Some (VStr m x)
  | VInt i a => Some (VInt i a)
  | VReal r a => Some (VReal r a)
  | VBranch arr l => l <- views text l ;; Some (VBranch arr l)
  end.
Lemma view_tree text n p s v : view text (Tree n p s v) = (n <- string_opt text n ;; v <- view_value text v ;; Some (Tree n p s v)).
Proof. destruct v; reflexivity. Qed.

(** ** names *)
Lemma control_skip_double x : forall n prev, cstring n -> (forall k, nth_error n k = Some 34 -> nth_error (prev :: n) k = Some 92) -> last (prev :: n) 0 <> 92 ->
  control_skip (n ++ 34 :: x) prev 34 = Some (List.length n).
Proof.
  induction n as [|c n IH]; intros prev C B E; cbn [app control_skip].
  - cbn [last] in E. rewrite (eqb_no prev 92) by easy. reflexivity.
  - inversion C; subst. rewrite (eqb_no c 0) by lia. cbn [negb andb].
    assert (K : negb (c =? 34) || ((prev =? 92) && (c =? 34) && is_control 34) = true).
    { destruct (Z.eqb_spec c 34) as [->|]; [|reflexivity]. specialize (B 0%nat eq_refl). cbn in B. injection B as ->. reflexivity. }
    rewrite K. rewrite IH; [reflexivity|easy| |].
    + intros k H. apply (B (S k)) in H. exact H.
    + destruct n; exact E.
Qed.
Lemma control_skip_single x : forall n prev, cstring n -> ~ In 39 n -> control_skip (n ++ 39 :: x) prev 39 = Some (List.length n).
Proof.
  induction n as [|c n IH]; intros prev C N; cbn [app control_skip].
  - change (is_control 39) with false. destruct (prev =? 92); reflexivity.
  - inversion C; subst. rewrite (eqb_no c 0), (eqb_no c 39) by (try (intros ->; apply N; now left); lia). cbn [negb andb orb].
    rewrite IH; [reflexivity|easy|intros I; apply N; now right].
Qed.
Lemma hex_char c : char_is_hex_digit c = true <-> hex_digit c.
Proof. unfold char_is_hex_digit, char_is_digit, hex_digit. rewrite !orb_true_iff, !andb_true_iff, !Z.leb_le. tauto. Qed.
Lemma control_char c : control c -> is_control c = true.
Proof. intros H. now apply strchr_yes. Qed.
Lemma no_hex_found x : forall k r, Exists hex_digit (firstn k r) -> no_hex (r ++ x) k = Some false.
Proof.
  induction k as [|k IH]; intros r H; [inversion H|]. destruct r as [|c r]; [inversion H|]. cbn [app no_hex rd nth_error obind tl]. cbn [firstn] in H.
  destruct (char_is_hex_digit c) eqn:D; [reflexivity|]. apply IH. inversion H as [? ? Hc|]; subst; [|easy]. apply hex_char in Hc. congruence.
Qed.
Lemma validate_ok x : forall n, cstring n -> escapes_ok n -> validate_name (n ++ 0 :: x) = Some true.
Proof.
  induction n as [|c n IH]; intros C Ok; cbn [app validate_name]; [reflexivity|]. inversion C; subst. rewrite (eqb_no c 0) by lia.
  assert (Ok' : escapes_ok n) by (intros a r ->; exact (Ok (c :: a) r eq_refl)). specialize (IH ltac:(easy) Ok').
  destruct (Z.eqb_spec c 92) as [->|]; [|now cbn [obind]].
  destruct (Ok [] n eq_refl) as [->|[(d & r & -> & D)|X]].
  - cbn [app rd nth_error obind]. exact IH.
  - cbn [app rd nth_error obind]. rewrite (control_char d D). cbn [obind]. exact IH.
  - destruct n as [|d r]; [now inversion X|]. cbn [app rd nth_error obind]. destruct (is_control d); [exact IH|].
    change (d :: r ++ 0 :: x) with ((d :: r) ++ 0 :: x). rewrite (no_hex_found (0 :: x) 4 (d :: r) X). cbn [obind]. exact IH.
Qed.
Lemma no_escapes n : ~ In 92 n -> escapes_ok n.
Proof. intros N a r ->. exfalso. apply N. apply in_or_app. right. now left. Qed.
Lemma ac_solid a : solid (assign_char a) /\ is_assign (assign_char a) = true /\ assign_char a <> 0 /\
  (if assign_char a =? 61 then Equals else if assign_char a =? 124 then AssignLine else Colon) = a.
Proof. destruct a; (split; [split; [unfold white; cbn; lia|cbn; lia]|]); (split; [reflexivity|]); split; (discriminate || reflexivity). Qed.
Lemma name_end_ok x h : ~ name_char h -> forall r, Forall name_char r -> name_end (r ++ h :: x) = Some (List.length r).
Proof.
  intros Nh. assert (A : forall c, char_is_alphanumeric c || (c =? 95) = true <-> name_char c).
  { intros c. unfold char_is_alphanumeric, char_is_digit, name_char. rewrite !orb_true_iff, letter_alpha, andb_true_iff, !Z.leb_le, Z.eqb_eq. intuition lia. }
  induction r as [|c r IH]; intros F; cbn [app name_end].
  - assert (E : char_is_alphanumeric h || (h =? 95) = false) by (apply not_true_iff_false; now rewrite A). rewrite E, andb_false_r. reflexivity.
  - inversion F as [|? ? Hc Fr]; subst. pose proof Hc as Hc'. apply A in Hc'. rewrite Hc'. assert (c <> 0 /\ ~ white c /\ ~ In c [58; 61; 124]) as (C0 & W & As) by (unfold name_char, letter, white in *; cbn [In]; lia).
    rewrite (eqb_no c 0), not_space by easy. unfold is_assign. change (asc ":=|") with [58; 61; 124]. rewrite strchr_no by easy. cbn [negb andb]. rewrite IH by easy. reflexivity.
Qed.
Lemma gap_head nl g c : gap nl g -> solid c -> ~ name_char c -> c <> 0 -> exists h tl, g ++ [c] = h :: tl /\ ~ name_char h /\ h <> 0.
Proof.
  intros G S N N0. destruct G as [|w g W _ _|s g _ _ _]; cbn [app].
  - exists c, []. easy.
  - exists w, (g ++ [c]). split; [easy|]. unfold white, name_char, letter in *. cbn [In] in W. lia.
  - eexists 47, _. split; [reflexivity|]. unfold name_char, letter. lia.
Qed.
Definition name_block (ns : name_style_t) (n g1 : list Z) (a : assign_style_t) : list Z := name_text ns n ++ g1 ++ [assign_char a].
Definition name_read (ns : name_style_t) (n g1 : list Z) (a : assign_style_t) : Prop := forall pre rest, let nb := name_block ns n g1 a in exists nb' k,
  List.length nb' = List.length nb /\
  parse_name (pre ++ nb ++ rest) (List.length pre) =
    Some (pre ++ nb' ++ rest, inl (Some (At (List.length pre + k)), Style false ns a Comma 0 (width4 g1), (List.length pre + (List.length nb - 1))%nat)) /\
  forall pre' post, List.length pre' = List.length pre -> string_at (pre' ++ nb' ++ post) (At (List.length pre + k)) = Some n.
Lemma quoted_name_ok q ns n g1 a : q = 34 /\ ns = DoubleQuote \/ q = 39 /\ ns = SingleQuote -> cstring n -> (forall prev x, prev = q -> control_skip (n ++ q :: x) prev q = Some (List.length n)) -> escapes_ok n -> gap true g1 -> name_read ns n g1 a.
Proof.
  intros Hq C Nq Nb G pre rest nb. set (ac := assign_char a) in *. pose proof (ac_solid a) as (Sa & Aa & A0 & As). fold ac in Sa, Aa, A0, As.
  exists (q :: n ++ 0 :: g1 ++ [ac]), 1%nat.
  assert (Enb : nb = q :: n ++ q :: g1 ++ [ac]) by (subst nb; unfold name_block; destruct Hq as [(-> & ->)|(-> & ->)]; cbn [name_text]; cbn [app]; rewrite <- app_assoc; reflexivity).
  assert (Hq' : q <> 0 /\ q <> 92) by (destruct Hq as [(-> & _)|(-> & _)]; lia). destruct Hq' as (Q0 & Q2).
  split; [rewrite Enb; cbn [List.length]; rewrite !app_length; reflexivity|]. split.
  2:{ intros pre' post L. rewrite <- L. pose proof (string_here (pre' ++ [q]) n (g1 ++ [ac]) post C) as H. rewrite app_length in H. cbn [List.length] in H. rewrite <- H.
      f_equal. cbn [app]. rewrite <- !app_assoc. reflexivity. }
  rewrite Enb. unfold parse_name. cbn [app]. rewrite rd_at. cbn [obind].
  assert (T : (q =? 34) || (q =? 39) || char_is_alpha q || (q =? 95) || (q =? 36) = true) by (destruct Hq as [(-> & _)|(-> & _)]; reflexivity). rewrite T.
  assert (T' : (q =? 34) || (q =? 39) = true) by (destruct Hq as [(-> & _)|(-> & _)]; reflexivity). rewrite T'.
  replace (pre ++ q :: (n ++ q :: g1 ++ [ac]) ++ rest) with ((pre ++ [q]) ++ n ++ q :: g1 ++ ac :: rest) by (rewrite <- !app_assoc; cbn [app]; rewrite <- !app_assoc; reflexivity).
  replace (S (List.length pre)) with (List.length (pre ++ [q])) by (rewrite app_length; cbn; lia).
  rewrite skipn_len, Nq by easy. cbn [obind].
  replace (List.length (pre ++ [q]) + List.length n)%nat with (List.length ((pre ++ [q]) ++ n)) by (rewrite app_length; lia).
  rewrite app_assoc, wr_at. cbn [obind].
  replace (((pre ++ [q]) ++ n) ++ 0 :: g1 ++ ac :: rest) with (((pre ++ [q]) ++ n ++ [0]) ++ g1 ++ ac :: rest) by (rewrite <- !app_assoc; reflexivity).
  replace (S (List.length ((pre ++ [q]) ++ n))) with (List.length ((pre ++ [q]) ++ n ++ [0])) by (rewrite !app_length; cbn [List.length]; lia).
  rewrite trim_ok by easy. cbn [obind].
  replace (rd (((pre ++ [q]) ++ n ++ [0]) ++ g1 ++ ac :: rest) (List.length ((pre ++ [q]) ++ n ++ [0]) + List.length g1)) with (Some ac)
    by (rewrite app_assoc, <- app_length; symmetry; apply rd_at).
  cbn [obind]. rewrite (eqb_no ac 0), Aa by easy. cbn [negb andb]. rewrite As.
  assert (X : exists x, rd (((pre ++ [q]) ++ n ++ [0]) ++ g1 ++ ac :: rest) (List.length ((pre ++ [q]) ++ n ++ [0])) = Some x).
  { destruct g1 as [|h tl]; cbn [app]; eexists; apply rd_at. }
  destruct X as (x & X). rewrite X. cbn [obind].
  replace (((pre ++ [q]) ++ n ++ [0]) ++ g1 ++ ac :: rest) with ((pre ++ [q]) ++ n ++ 0 :: g1 ++ ac :: rest) by (rewrite <- !app_assoc; reflexivity).
  assert (V : validate_name (skipn (List.length (pre ++ [q])) ((pre ++ [q]) ++ n ++ 0 :: g1 ++ ac :: rest)) = Some true) by (rewrite skipn_len; now apply validate_ok).
  assert (W : Z.of_nat (List.length ((pre ++ [q]) ++ n ++ [0]) + List.length g1 - List.length ((pre ++ [q]) ++ n ++ [0])) mod 16 = width4 g1) by (unfold width4; f_equal; lia).
  assert (F : (pre ++ [q]) ++ n ++ 0 :: g1 ++ ac :: rest = pre ++ q :: (n ++ 0 :: g1 ++ [ac]) ++ rest) by (rewrite <- !app_assoc; cbn [app]; rewrite <- !app_assoc; reflexivity).
  assert (P : (List.length ((pre ++ [q]) ++ n ++ [0%Z]) + List.length g1 = List.length pre + (List.length (q :: n ++ q :: g1 ++ [ac]) - 1))%nat) by (rewrite !app_length; cbn [List.length]; rewrite !app_length; cbn [List.length]; rewrite ?app_length; cbn [List.length]; lia).
  rewrite <- F, <- P, <- W. clear T T' F P W X As Enb nb.
  destruct Hq as [(-> & ->)|(-> & ->)]; change (34 =? 34) with true; change (39 =? 34) with false; cbn [obind]; rewrite V; cbn [obind]; rewrite app_length; cbn [List.length]; reflexivity.
Qed.
Lemma plain_name_ok n g1 a c r : n = c :: r -> name_start c -> Forall name_char r -> gap true g1 -> name_read NoQuotes n g1 a.
Proof.
  intros -> Hs F G pre rest nb. set (ac := assign_char a) in *. pose proof (ac_solid a) as (Sa & Aa & A0 & As). fold ac in Sa, Aa, A0, As.
  assert (Na : ~ name_char ac) by (subst ac; destruct a; cbn; unfold name_char, letter; lia).
  destruct (gap_head true g1 ac G Sa Na A0) as (h & t & E & Nh & H0).
  assert (Cn : cstring (c :: r)).
  { constructor; [unfold name_start, letter in Hs; lia|]. eapply Forall_impl; [|exact F]. unfold name_char, letter. intros; cbn beta in *; lia. }
  assert (Nb : ~ In 92 (c :: r)).
  { intros [I|I]; [unfold name_start, letter in Hs; lia|]. rewrite Forall_forall in F. apply F in I. unfold name_char, letter in I. lia. }
  exists (c :: r ++ 0 :: t), 0%nat. subst nb. unfold name_block. fold ac. cbn [name_text]. rewrite E.
  split; [cbn [List.length app]; rewrite !app_length; reflexivity|]. split.
  2:{ intros pre' post L. rewrite Nat.add_0_r, <- L. apply (string_here pre' (c :: r) t post Cn). }
  unfold parse_name. cbn [app]. rewrite rd_at. cbn [obind].
  assert (Sc : (c =? 34) || (c =? 39) || char_is_alpha c || (c =? 95) || (c =? 36) = true).
  { rewrite !orb_true_iff, letter_alpha, !Z.eqb_eq. unfold name_start in Hs. tauto. }
  rewrite Sc. assert (c <> 34 /\ c <> 39) as (C1 & C2) by (unfold name_start, letter in Hs; lia). rewrite (eqb_no c 34), (eqb_no c 39) by easy. cbn [orb].
  assert (Tx : pre ++ c :: (r ++ h :: t) ++ rest = (pre ++ [c]) ++ r ++ h :: t ++ rest) by (rewrite <- !app_assoc; reflexivity). rewrite Tx.
  replace (S (List.length pre)) with (List.length (pre ++ [c])) by (rewrite app_length; cbn; lia).
  rewrite skipn_len, name_end_ok by easy. cbn [obind].
  replace (List.length (pre ++ [c]) + List.length r)%nat with (List.length ((pre ++ [c]) ++ r)) by (rewrite app_length; lia). rewrite app_assoc.
  assert (Gx : h :: t ++ rest = g1 ++ ac :: rest) by (change (h :: t ++ rest) with ((h :: t) ++ rest); rewrite <- E, <- app_assoc; reflexivity).
  rewrite Gx, trim_ok by easy. cbn [obind].
  replace (rd (((pre ++ [c]) ++ r) ++ g1 ++ ac :: rest) (List.length ((pre ++ [c]) ++ r) + List.length g1)) with (Some ac) by (rewrite app_assoc, <- app_length; symmetry; apply rd_at).
  cbn [obind]. rewrite (eqb_no ac 0), Aa by easy. cbn [negb andb]. rewrite As. rewrite <- Gx, rd_at. cbn [obind]. rewrite (eqb_no h 0) by easy. cbn [negb].
  rewrite wr_at. cbn [obind].
  replace (((pre ++ [c]) ++ r) ++ 0 :: t ++ rest) with (pre ++ (c :: r) ++ 0 :: t ++ rest) by (rewrite <- !app_assoc; reflexivity).
  rewrite skipn_len, validate_ok by (easy || (apply no_escapes; easy)). cbn [obind]. rewrite Nat.add_0_r.
  assert (L : List.length (h :: t) = S (List.length g1)) by (rewrite <- E, app_length; cbn; lia). cbn [List.length] in L.
  replace (List.length ((pre ++ [c]) ++ r) + List.length g1 - List.length ((pre ++ [c]) ++ r))%nat with (List.length g1) by lia.
  replace (List.length ((pre ++ [c]) ++ r) + List.length g1)%nat with (List.length pre + (List.length (c :: r ++ h :: t) - 1))%nat by (rewrite !app_length; cbn [List.length]; rewrite app_length; cbn [List.length]; lia).
  unfold width4. repeat (rewrite <- !app_assoc; cbn [app]). reflexivity.
Qed.
Lemma name_ok_read ns n g1 a : name_ok ns n -> gap true g1 -> name_read ns n g1 a.
Proof.
  destruct ns; cbn [name_ok].
  - intros ((C & B & E) & O) G. apply (quoted_name_ok 34); auto. intros prev x ->. apply control_skip_double; [easy| |].
    + intros k H. destruct (B k H) as (j & -> & J). exact J.
    + destruct n as [|c n _] using rev_ind; [cbn; lia|]. intros L. apply (E n). f_equal. change (34 :: n ++ [c]) with ((34 :: n) ++ [c]) in L. rewrite last_app in L. now subst.
  - intros (C & N & O) G. apply (quoted_name_ok 39); auto. intros prev x _. now apply control_skip_single.
  - intros (c & r & E & Hs & F) G. now apply (plain_name_ok n g1 a c r).
Qed.
