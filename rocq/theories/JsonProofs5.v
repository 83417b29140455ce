(** Proofs about JSON: what should not be accepted. *)
From Coq Require Import String.
From Verif Require Import Base CStr CStrSpec CStrProofs CStrProofs2 Num NumSpec Print PrintSpec PrintProofs2 Node Json NodeProofs UriProofs JsonSpec JsonProofs JsonProofs2 JsonProofs3.

Lemma object_at l t g x post text p : members l t -> x = 125 \/ x = 0 /\ l <> [] -> text = g ++ 123 :: t ++ x :: post -> json_trim text p false = Some (List.length g) ->
  exists text' l' q, parse_object (2 * List.length text + 3) text p = Some (text', VBranch false l', Stop q) /\ views text' l' = Some l.
Proof.
  destruct texts_read as (_ & _ & MB). intros M Hx T Tp. destruct (MB l t M) as (_ & R).
  destruct (R (2 * List.length text + 2)%nat (g ++ [123]) x post []) as (t' & l' & L & P & W); [rewrite T, !app_length; cbn [List.length]; rewrite app_length; cbn [List.length]; lia|easy|].
  exists ((g ++ [123]) ++ t' ++ x :: post), l'. eexists. split; [|now apply W].
  replace (2 * List.length text + 3)%nat with (S (2 * List.length text + 2)) by lia. cbn [parse_object]. rewrite Tp. cbn [obind].
  assert (R1 : rd text (List.length g) = Some 123) by (rewrite T; apply rd_at). rewrite R1. cbn [obind]. change (123 =? 91) with false. change (123 =? 123) with true. cbn match.
  assert (T3 : text = (g ++ [123]) ++ t ++ x :: post) by (rewrite T; norm; reflexivity). replace (S (List.length g)) with (List.length (g ++ [123])) by lens.
  rewrite T3 at 2. rewrite P. reflexivity.
Qed.
Theorem parse_open l t g post : gap false g -> members l t -> l <> [] ->
  exists text' r', json_parse (g ++ 123 :: t ++ 0 :: post) = Some (JsonNone, text', r') /\ view text' r' = Some (doc_root false false l).
Proof.
  intros G M Ne. set (text := g ++ 123 :: t ++ 0 :: post). assert (S3 : solid 123) by (apply solid_of; cbn; lia).
  destruct (object_at l t g 0 post text (List.length g) M (or_intror (conj eq_refl Ne)) eq_refl) as (text' & l' & q & P & W).
  { pose proof (trim_ok g [] 123 (t ++ 0 :: post) (gap_nil _) S3) as X. cbn [app List.length] in X. rewrite Nat.add_0_r in X. exact X. }
  exists text', (json_root false (VBranch false l')). split; [|now apply view_root]. unfold json_parse.
  assert (T1 : json_trim text 0 true = Some (List.length g)) by (apply (trim_catch_ok [] g 123); [easy|now left]). rewrite T1. cbn [obind].
  assert (R1 : rd text (List.length g) = Some 123) by (apply rd_at). rewrite R1. cbn [obind]. rewrite P. reflexivity.
Qed.
Theorem parse_newline l t g g' post : gap false g -> gap true g' -> members l t ->
  exists text' r', json_parse (g ++ 10 :: g' ++ 123 :: t ++ 125 :: post) = Some (JsonNone, text', r') /\ view text' r' = Some (doc_root true false l).
Proof.
  intros G G' M. set (text := g ++ 10 :: g' ++ 123 :: t ++ 125 :: post). assert (S3 : solid 123) by (apply solid_of; cbn; lia).
  assert (T0 : text = (g ++ 10 :: g') ++ 123 :: t ++ 125 :: post) by (unfold text; norm; reflexivity).
  destruct (object_at l t (g ++ 10 :: g') 125 post text (List.length g) M (or_introl eq_refl) T0) as (text' & l' & q & P & W).
  { pose proof (trim_ok g (10 :: g') 123 (t ++ 125 :: post)) as X. unfold text. cbn [app] in X. rewrite X; [now rewrite app_length| |easy]. apply (gap_app true [10]); [apply newline_gap|easy]. }
  exists text', (json_root true (VBranch false l')). split; [|now apply view_root]. unfold json_parse.
  assert (T1 : json_trim text 0 true = Some (List.length g)) by (apply (trim_catch_ok [] g 10); [easy|now right]). rewrite T1. cbn [obind].
  assert (R1 : rd text (List.length g) = Some 10) by (apply rd_at). rewrite R1. cbn [obind]. rewrite P. reflexivity.
Qed.
(** a block comment and one more character *)
Lemma skip_star s x : cstring s -> ~ In 42 s -> str_skip (s ++ 42 :: x) 42 = Some (List.length s).
Proof.
  intros C N. induction s as [|c s IH]; cbn [app str_skip].
  - reflexivity.
  - inversion C; subst. rewrite (eqb_no c 0), (eqb_no c 42) by (lia || (intros ->; apply N; now left)). cbn [orb]. rewrite IH; [reflexivity|easy|]. intros I. apply N. now right.
Qed.
Lemma trim_block s c x f k b : cstring s -> ~ In 42 s -> c <> 0 -> trim_loop f x b = Some k ->
  trim_loop (S f) (47 :: 42 :: s ++ 42 :: 47 :: c :: x) b = Some (5 + List.length s + k)%nat.
Proof.
  intros C N H T. cbn [trim_loop]. set (text := 47 :: 42 :: s ++ 42 :: 47 :: c :: x).
  assert (P1 : has_prefix text [47; 47; 0] = Some false) by reflexivity.
  assert (P2 : has_prefix text [47; 42; 0] = Some true) by reflexivity. rewrite P1. cbn [obind]. rewrite P2. cbn [obind].
  assert (P3 : str_skip (skipn 2 text) 42 = Some (List.length s)) by (cbn [text skipn]; now apply skip_star). rewrite P3. cbn [obind].
  assert (E : forall y j, rd (47 :: 42 :: s ++ y) (2 + List.length s + j) = rd y j).
  { intros y j. unfold rd. cbn [Nat.add nth_error]. rewrite nth_error_app2 by lia. f_equal. lia. }
  cbv zeta.
  assert (E0 : rd text (2 + List.length s) = Some 42) by (rewrite <- (Nat.add_0_r (2 + List.length s)); apply (E (42 :: 47 :: c :: x) 0%nat)).
  assert (E1 : rd text (S (2 + List.length s)) = Some 47) by (replace (S (2 + List.length s)) with (2 + List.length s + 1)%nat by lia; apply (E (42 :: 47 :: c :: x) 1%nat)).
  assert (E2 : rd text (2 + List.length s + 2) = Some c) by apply (E (42 :: 47 :: c :: x) 2%nat).
  rewrite E0. cbn [obind]. change (42 =? 0) with false. cbn match. rewrite E1. cbn [obind]. change (47 =? 47) with true. cbn match. rewrite E2. cbn [obind]. rewrite (eqb_no c 0) by easy.
  assert (Sk : skipn (S (2 + List.length s + 2)) text = x).
  { unfold text. replace (S (2 + List.length s + 2)) with (S (S (List.length s + 3))) by lia. cbn [skipn]. rewrite skipn_app, skipn_all2 by lia. replace (List.length s + 3 - List.length s)%nat with 3%nat by lia. reflexivity. }
  rewrite Sk, T. cbn [obind]. f_equal. lia.
Qed.
Theorem parse_block l t g s c post : gap false g -> cstring s -> ~ In 42 s -> c <> 0 -> members l t -> l <> [] ->
  exists text' r', json_parse (g ++ 123 :: 47 :: 42 :: s ++ 42 :: 47 :: c :: t ++ 125 :: post) = Some (JsonNone, text', r') /\ view text' r' = Some (doc_root false false l).
Proof.
  intros G C N H M Ne. destruct texts_read as (_ & _ & MB). destruct (MB l t M) as (_ & R). assert (S3 : solid 123) by (apply solid_of; cbn; lia).
  set (bl := 47 :: 42 :: s ++ [42; 47; c]). set (text := g ++ 123 :: bl ++ t ++ 125 :: post).
  replace (g ++ 123 :: 47 :: 42 :: s ++ 42 :: 47 :: c :: t ++ 125 :: post) with text by (unfold text, bl; cbn [app]; norm; reflexivity).
  destruct (R (2 * List.length text + 2)%nat ((g ++ [123]) ++ bl) 125 post []) as (t' & l' & L & P & W); [unfold text; rewrite !app_length; cbn [List.length]; rewrite !app_length; lia|now left|].
  exists (((g ++ [123]) ++ bl) ++ t' ++ 125 :: post), (json_root false (VBranch false l')). split; [|apply view_root; now apply W].
  unfold json_parse.
  assert (T1 : json_trim text 0 true = Some (List.length g)) by (apply (trim_catch_ok [] g 123); [easy|now left]). rewrite T1. cbn [obind].
  assert (R1 : rd text (List.length g) = Some 123) by (apply rd_at). rewrite R1. cbn [obind].
  replace (2 * List.length text + 3)%nat with (S (2 * List.length text + 2)) by lia. cbn [parse_object].
  assert (T2 : json_trim text (List.length g) false = Some (List.length g)).
  { pose proof (trim_ok g [] 123 (bl ++ t ++ 125 :: post) (gap_nil _) S3) as X. cbn [app List.length] in X. rewrite Nat.add_0_r in X. exact X. }
  rewrite T2. cbn [obind]. rewrite R1. cbn [obind]. change (123 =? 91) with false. change (123 =? 123) with true. cbn match.
  destruct (members_start l t M Ne) as (g1 & h & r & Et & G1 & Sh & _).
  assert (T4 : text = ((g ++ [123]) ++ bl) ++ g1 ++ h :: r ++ 125 :: post) by (unfold text; rewrite Et; norm; reflexivity).
  assert (T5 : json_trim text (List.length ((g ++ [123]) ++ bl)) false = Some (List.length ((g ++ [123%Z]) ++ bl) + List.length g1)%nat) by (rewrite T4; now apply trim_ok).
  assert (T6 : json_trim text (S (List.length g)) false = Some (List.length ((g ++ [123%Z]) ++ bl) + List.length g1)%nat).
  { unfold json_trim. assert (Sk : skipn (S (List.length g)) text = 47 :: 42 :: s ++ 42 :: 47 :: c :: g1 ++ h :: r ++ 125 :: post).
    { replace (S (List.length g)) with (List.length (g ++ [123])) by lens. replace text with ((g ++ [123]) ++ 47 :: 42 :: s ++ 42 :: 47 :: c :: g1 ++ h :: r ++ 125 :: post) by (rewrite T4; unfold bl; norm; reflexivity). apply skipn_len. }
    rewrite Sk. rewrite (trim_block s c (g1 ++ h :: r ++ 125 :: post) _ (List.length g1)); [|easy|easy|easy|].
    - cbn [obind]. f_equal. unfold bl. rewrite !app_length. cbn [List.length]. rewrite !app_length. cbn [List.length]. lia.
    - apply (trim_gap true g1 G1); [|now left]. cbn [List.length]. rewrite !app_length. cbn [List.length]. rewrite app_length. lia. }
  rewrite (loop_trim _ _ _ _ [] T6), <- (loop_trim _ _ _ _ [] T5).
  assert (T7 : text = ((g ++ [123]) ++ bl) ++ t ++ 125 :: post) by (unfold text; norm; reflexivity). rewrite T7 at 2. rewrite P. reflexivity.
Qed.
(** ** quotes *)
Lemma escape_quote_literal s : literal 34 s -> literal 34 (escape [34] [92] s).
Proof.
  intros (C & Q & B). split; [|split].
  - unfold escape. clear Q B. induction C as [|c s Hc C IH]; cbn [flat_map]; [constructor|]. apply Forall_app. split; [|exact IH]. destruct (existsb _ _); cbn [app]; repeat constructor; lia.
  - clear C B Q. unfold escape. 
    assert (E : forall k pre, nth_error (pre ++ flat_map (fun c => if existsb (Z.eqb c) [34] then [92] ++ [c] else [c]) s) k = Some 34 -> (List.length pre <= k)%nat ->
       exists j, k = S j /\ nth_error (pre ++ flat_map (fun c => if existsb (Z.eqb c) [34] then [92] ++ [c] else [c]) s) j = Some 92).
    { induction s as [|c s IH]; intros k pre E L; cbn [flat_map] in *.
      - rewrite nth_error_app2 in E by easy. now destruct (k - List.length pre)%nat.
      - cbn [existsb] in *. rewrite orb_false_r in *. destruct (Z.eqb_spec c 34) as [->|Nc]; cbn [app] in *.
        + destruct (Nat.eq_dec k (List.length pre)) as [->|Nk]; [exfalso; rewrite nth_error_app2, Nat.sub_diag in E by lia; discriminate E|].
          destruct (Nat.eq_dec k (S (List.length pre))) as [->|Nk'].
          * exists (List.length pre). split; [easy|]. rewrite nth_error_app2, Nat.sub_diag by lia. reflexivity.
          * specialize (IH k (pre ++ [92; 34])). rewrite <- app_assoc in IH. apply IH; [exact E|]. rewrite app_length. cbn [List.length]. lia.
        + destruct (Nat.eq_dec k (List.length pre)) as [->|Nk]; [exfalso; rewrite nth_error_app2, Nat.sub_diag in E by lia; cbn in E; congruence|].
          specialize (IH k (pre ++ [c])). rewrite <- app_assoc in IH. apply IH; [exact E|]. rewrite app_length. cbn [List.length]. lia. }
    intros k Hk. apply (E k []); [exact Hk|cbn; lia].
  - intros r E. destruct (@exists_last Z s) as (s' & c & Es).
    + intros ->. now destruct r.
    + subst s. rewrite escape_app in E. unfold escape in E at 2. cbn [flat_map existsb] in E. rewrite app_nil_r in E. destruct ((c =? 34) || false).
      * cbn [app] in E. change [92; c] with ([92] ++ [c]) in E. rewrite app_assoc in E. apply app_inj_tail in E. destruct E as (_ & ->). now apply (B s').
      * apply app_inj_tail in E. destruct E as (_ & ->). now apply (B s').
Qed.
Definition quoted_again (s : list Z) : list Z := flat_map (fun c => if c =? 34 then [92; 34] else [c]) s.
Lemma quoted_again_eq s : escape [34] [92] s = quoted_again s.
Proof. unfold escape, quoted_again. apply flat_map_ext. intros c. cbn [existsb]. rewrite orb_false_r. now destruct (Z.eqb_spec c 34) as [->|]. Qed.
Lemma quoted_again_longer s : In 34 s -> (List.length s < List.length (quoted_again s))%nat.
Proof.
  assert (L : forall s, (List.length s <= List.length (quoted_again s))%nat).
  { clear s. intros s. unfold quoted_again. induction s as [|c s IH]; cbn [flat_map List.length]; [lia|]. rewrite app_length. destruct (c =? 34); cbn [List.length]; lia. }
  induction s as [|c s IH]; intros I; [destruct I|]. unfold quoted_again in *. cbn [flat_map List.length]. rewrite app_length. destruct (Z.eqb_spec c 34) as [->|N]; cbn [List.length].
  - specialize (L s). lia.
  - destruct I as [I|I]; [congruence|]. specialize (IH I). lia.
Qed.
Theorem write_quotes n s : name_ok DoubleQuote n -> Z.of_nat (List.length n) + 2 < max_text -> literal 34 s -> Z.of_nat (List.length s) < max_text ->
  exists t, json_write (doc_root false false [Tree (Some n) 0 zero_style (VStr false (Some s))]) compact_indent = Some t /\
            document (doc_root false false [Tree (Some n) 0 zero_style (VStr false (Some (quoted_again s)))]) t.
Proof.
  intros No Nl Q L. pose proof (escape_quote_literal s Q) as Q'. rewrite quoted_again_eq in Q'. destruct Q as (C & _).
  unfold json_write. cbn [doc_root t_value t_style]. change compact_indent with COMPACT.
  rewrite (write_object_ok (Style false DoubleQuote Colon Comma 0 0) false COMPACT _ _ 123 125 (34 :: n ++ [34; 58; 34] ++ quoted_again s ++ [34])); [|reflexivity|reflexivity|reflexivity|unfold indent_ok, compact_indent, max_text, COMPACT; lia|].
  - eexists. split; [reflexivity|]. change (spaces (COMPACT - 4)) with (@nil Z). change (eol_of (Style false DoubleQuote Colon Comma 0 0) COMPACT) with (@nil Z). change (spaces COMPACT) with (@nil Z). cbn [app].
    change (if 0 <? COMPACT then [] else []) with (@nil Z). rewrite app_nil_r.
    pose proof (doc_object [] [Tree (Some n) 0 zero_style (VStr false (Some (quoted_again s)))] (34 :: n ++ 34 :: 58 :: 34 :: quoted_again s ++ [34]) (gap_nil _)) as D. cbn [app] in D. 
    replace (123 :: 34 :: (n ++ 34 :: 58 :: 34 :: quoted_again s ++ [34]) ++ [125]) with (123 :: (34 :: n ++ 34 :: 58 :: 34 :: quoted_again s ++ [34]) ++ [125]) by reflexivity. apply D.
    pose proof (flat_last [] DoubleQuote n [] Colon [] 0 (VStr false (Some (quoted_again s))) (34 :: quoted_again s ++ [34]) [] (gap_nil _) No (gap_nil _) (gap_nil _) (vt_string 34 _ (or_introl eq_refl) Q') (gap_nil _)) as M.
    cbn [name_text app assign_char] in M. rewrite app_nil_r in M. rewrite <- app_assoc in M. exact M.
  - rewrite write_nodes_cons, write_line. change (deeper COMPACT) with COMPACT. rewrite ind_ok by reflexivity. rewrite write_name_ok; [|easy|easy|cbn; lia]. rewrite write_delim_ok by (cbn; lia). cbn [obind].
    assert (B : body COMPACT (Tree (Some n) 0 zero_style (VStr false (Some s))) = Some (34 :: quoted_again s ++ [34])).
    { unfold body. rewrite lit_one by lia. cbn [obind]. rewrite print_string_ok; [|apply cs_one; lia|apply cs_one; lia|unfold small, PRINTF_MAXLEN; cbn; lia|easy|unfold small, PRINTF_MAXLEN, max_text in *; lia]. rewrite quoted_again_eq. reflexivity. }
    rewrite B. cbn [obind write_nodes]. change (spaces COMPACT) with (@nil Z). change (name_gap zero_style COMPACT) with (@nil Z). change (space_of COMPACT) with (@nil Z). change (delim_text zero_style COMPACT true) with (@nil Z).
    cbn [name_text name_style assign_style zero_style assign_char app]. rewrite !app_nil_r. f_equal. norm. reflexivity.
Qed.
