(** C53, C54: JSON documents. *)
From Coq Require Import String.
From Verif Require Import Base CStr CStrSpec Num NumSpec Print PrintSpec Node Json NodeProofs JsonSpec JsonProofs JsonProofs2 JsonProofs3 JsonProofs4 JsonProofs5.

(** * C53 *)
(** every text of a document is read as that document, whatever follows *)
Theorem C53_parse : forall root t post, document root t ->
  exists text tree, json_parse (t ++ post) = Some (JsonNone, text, tree) /\ view text tree = Some root.
Proof. intros. now apply document_parse. Qed.
(** what is written, with the NUL after it, starts with a text of the document *)
Theorem C53_write : forall i cfg arr l, good_root i cfg arr l ->
  exists t d post, json_write (doc_root cfg arr l) i = Some t /\ t ++ [0] = d ++ post /\ document (settle (i =? compact_indent) (doc_root cfg arr l)) d.
Proof. exact write_root. Qed.
Theorem C53_round_trip : forall i cfg arr l post, good_root i cfg arr l ->
  exists t text tree, json_write (doc_root cfg arr l) i = Some t /\ json_parse (t ++ 0 :: post) = Some (JsonNone, text, tree) /\
                      view text tree = Some (settle (i =? compact_indent) (doc_root cfg arr l)).
Proof.
  intros i cfg arr l post G. destruct (write_root i cfg arr l G) as (t & d & p & W & E & D). exists t.
  destruct (document_parse _ d (p ++ post) D) as (text & tree & P & V). exists text, tree. split; [easy|]. split; [|easy].
  rewrite <- P. f_equal. change (0 :: post) with ([0] ++ post). now rewrite !app_assoc, E.
Qed.
(** what came back is written as the same text, and comes back unchanged *)
Theorem C53_rewrite : forall i cfg arr l, good_root i cfg arr l ->
  json_write (settle (i =? compact_indent) (doc_root cfg arr l)) i = json_write (doc_root cfg arr l) i /\
  settle (i =? compact_indent) (settle (i =? compact_indent) (doc_root cfg arr l)) = settle (i =? compact_indent) (doc_root cfg arr l).
Proof. intros i cfg arr l G. split; [now apply write_again|apply settle_idem]. Qed.
(** nothing but the style of members can change: names, properties and values of all nodes stay *)
Fixpoint unstyled (t : tree (list Z)) : tree (list Z) :=
  let (n, p, _, v) := t in Tree n p zero_style (match v with VBranch arr l => VBranch arr (map unstyled l) | v => v end).
Lemma unstyled_with st t : unstyled (with_style st t) = unstyled t.
Proof. now destruct t. Qed.
Theorem C53_same_data : forall compact t, unstyled (settle compact t) = unstyled t.
Proof.
  intros c t. induction t as [n p st v IH] using tree_ind2. destruct v as [|m s|k a|r a|arr l]; try reflexivity. specialize (IH arr l eq_refl). destruct arr.
  - rewrite settle_array. cbn [unstyled]. do 2 f_equal. rewrite map_map. apply map_ext_in. intros x I. rewrite Forall_forall in IH. auto.
  - rewrite settle_object. cbn [unstyled]. do 2 f_equal. induction l as [|x l IHl]; [reflexivity|]. inversion IH as [|? ? Hx Hl]; subst. cbn [settle_members map]. rewrite IHl by easy. f_equal. now rewrite unstyled_with.
Qed.
(** members in the default style come back exactly from a compact text *)
Fixpoint plain (t : tree (list Z)) : Prop :=
  let (_, _, st, v) := t in
  st = zero_style /\ match v with VBranch _ l => (fix go l := match l with [] => True | x :: r => plain x /\ go r end) l | _ => True end.
Theorem C53_compact_exact : forall l, (forall x, In x l -> plain x) -> forall arr,
  settle true (doc_root false arr l) = doc_root false arr l.
Proof.
  assert (P : forall t, plain t -> settle true t = t /\ with_style (settled true true (t_style t)) t = t /\ with_style (settled true false (t_style t)) t = t).
  { intros t. induction t as [n p st v IH] using tree_ind2. intros (-> & Pl). split; [|split; reflexivity]. destruct v as [|m s|k a|r a|arr l]; try reflexivity. specialize (IH arr l eq_refl). destruct arr.
    - rewrite settle_array. do 2 f_equal. induction l as [|x l IHl]; [reflexivity|]. inversion IH as [|? ? Hx Hl]; subst. destruct Pl as (Px & Pl). cbn [map]. rewrite IHl by easy. f_equal. now apply Hx.
    - rewrite settle_object. do 2 f_equal. induction l as [|x l IHl]; [reflexivity|]. inversion IH as [|? ? Hx Hl]; subst. destruct Pl as (Px & Pl). cbn [settle_members]. fold (settle_members true). rewrite IHl by easy. f_equal.
      destruct (Hx Px) as (E & E1 & E2). rewrite E. now destruct l. }
  intros l H arr. rewrite settle_root. f_equal. destruct arr.
  - induction l as [|x l IHl]; [reflexivity|]. cbn [map]. rewrite IHl by (intros; apply H; now right). f_equal. apply P. apply H. now left.
  - induction l as [|x l IHl]; [reflexivity|]. cbn [settle_members]. fold (settle_members true). rewrite IHl by (intros; apply H; now right). f_equal.
    destruct (P x (H x (or_introl eq_refl))) as (E & E1 & E2). rewrite E. now destruct l.
Qed.

(** an example: {"a":[1,{"k":"x"},true],"b":null} *)
Definition ex_doc : list (tree (list Z)) :=
  [Tree (Some (asc "a")) 0 zero_style (VBranch true
     [Tree None 0 zero_style (VInt 1 zero_analysis);
      Tree None 0 zero_style (VBranch false [Tree (Some (asc "k")) 0 zero_style (VStr false (Some (asc "x")))]);
      Tree None PROPS_TRUE zero_style (VReal (RConst 1) zero_analysis)]);
   Tree (Some (asc "b")) PROPS_NULL zero_style (VReal (RConst 0) zero_analysis)].
Definition q1 (s : string) : list Z := map (fun c => if c =? 39 then 34 else c) (asc s).
Lemma letter_name c : letter c -> name_ok DoubleQuote [c].
Proof.
  intros H. unfold letter in H. split; [|apply no_escapes; intros [E|[]]; lia]. split; [constructor; [lia|constructor]|]. split.
  - intros [|[|k]] E; [injection E; lia|discriminate E|discriminate E].
  - intros [|a r] E; [injection E; lia|]. injection E as _ E. now destruct r.
Qed.
Example ex_doc_good i : indent_ok (i + 20) -> compact_indent <= i -> good_root i false false ex_doc.
Proof.
  intros I L. unfold indent_ok, compact_indent in *.
  assert (A : compact_indent <= i < max_text /\ compact_indent <= deeper i < max_text).
  { unfold deeper, compact_indent. destruct (i =? -1000); unfold max_text in *; lia. }
  assert (N : forall c, letter c -> name_ok DoubleQuote [c]).
  { exact letter_name. }
  assert (Gm : forall j last n p v, name_ok DoubleQuote n -> Z.of_nat (List.length n) + 2 < max_text -> (is_object v -> j = compact_indent \/ 0 < j \/ last = true) -> good_member j last (Tree (Some n) p zero_style v)).
  { intros j last n p v Hn Hl Ho. split; [exists n; easy|]. split; [easy|]. split; [cbn; lia|]. split; [cbn; lia|]. intros O. cbn [t_style zero_style delim_style]. destruct (Z.eqb_spec j compact_indent); [easy|]. destruct (Ho O) as [?|[?|?]]; [easy|now left|right; right; now split]. }
  split; [exact (proj1 A)|]. split; [apply Gm; [apply (N 97); unfold letter; lia|reflexivity|intros (l & E); discriminate E]|]. split; [|split; [|split; [|exact Logic.I]]].
  - split; [exact (proj2 A)|]. split; [reflexivity|]. split; [reflexivity|]. split; [reflexivity|].
    assert (B : forall x, indent_ok (element_indent (deeper i) x)) by (intros x; unfold element_indent, indent_ok; destruct (deeper i =? compact_indent); [exact (proj2 A)|]; unfold compact_indent, max_text; destruct (t_value x); lia).
    split; [split; [apply B|]; split; [reflexivity|]; split; [reflexivity|lia]|].
    split; [reflexivity|]. split; [reflexivity|]. split.
    + split; [apply B|]. split; [reflexivity|]. set (j := element_indent _ _).
      assert (J : j = compact_indent \/ j = 4) by (unfold j, element_indent; destruct (deeper i =? compact_indent) eqn:E; [apply Z.eqb_eq in E; now left|now right]).
      split; [apply Gm; [apply (N 107); unfold letter; lia|reflexivity|now right; right]|]. split; [|exact Logic.I].
      split; [unfold indent_ok, deeper, compact_indent, max_text in *; destruct J as [-> | ->]; cbn; lia|]. split; [reflexivity|].
      split; [constructor; [split; reflexivity|constructor]|]. split; [intros [E|[]]; discriminate E|]. split; [|reflexivity]. intros [|a [|b r]]; discriminate.
    + split; [reflexivity|]. split; [reflexivity|]. split; [|exact Logic.I]. split; [apply B|]. split; [reflexivity|]. exists (asc "true"). cbn. auto.
  - apply Gm; [apply (N 98); unfold letter; lia|reflexivity|intros (l & E); discriminate E].
  - split; [exact (proj2 A)|]. split; [reflexivity|]. exists (asc "null"). cbn. auto.
Qed.
Example ex_doc_compact : json_write (doc_root false false ex_doc) compact_indent = Some (q1 "{'a':[1, {'k':'x'}, true],'b':null}").
Proof. now vm_compute. Qed.
Example ex_doc_text : json_write (doc_root false false ex_doc) 0 = Some (map (fun c => if c =? 35 then 10 else c) (q1 "{#    'a': [1, {#        'k': 'x'#    }, true],#    'b': null#}#")).
Proof. now vm_compute. Qed.
Example ex_doc_plain : forall x, In x ex_doc -> plain x.
Proof. intros x [<-|[<-|[]]]; cbn [plain]; repeat (split; [reflexivity|]); repeat split. Qed.
(** texts with comments, other quotes and assignments, without commas *)
Example ex_text : document (doc_root false false [Tree (Some (asc "a")) 0 (Style false NoQuotes Equals Newline 0 1) (VInt (-7) zero_analysis);
                                                  Tree (Some (asc "b")) 0 (Style false SingleQuote Colon Comma 0 0) (VBranch true [])])
                           (map (fun c => if c =? 35 then 10 else c) (asc "{ a = -7//c##'b':[ ]}")).
Proof.
  apply (doc_object [] _ (map (fun c => if c =? 35 then 10 else c) (asc " a = -7//c##'b':[ ]"))); [constructor|].
  assert (G1 : forall nl, gap nl [32]) by (intros nl; apply (spaces_gap nl 1)).
  apply (mb_cons [32] NoQuotes (asc "a") [32] Equals [32] 0 (VInt (-7) zero_analysis) (asc "-7") (47 :: 47 :: asc "c" ++ 10 :: []) Newline); try apply G1.
  - exists 97, []. split; [reflexivity|]. split; [left; unfold letter; lia|constructor].
  - apply vt_int; [lia|]. exists [7]. split; [split; [constructor; [lia|constructor]|right; exists 7, []; split; [reflexivity|lia]]|split; reflexivity].
  - apply gap_comment; [constructor; [split; reflexivity|constructor]|intros [E|[]]; discriminate E|constructor].
  - apply (mb_last [] SingleQuote (asc "b") [] Colon [] 0 (VBranch true []) (asc "[ ]") []); try constructor.
    + constructor; [split; reflexivity|constructor].
    + split; [intros [E|[]]; discriminate E|apply no_escapes; intros [E|[]]; discriminate E].
    + apply (vt_array [] [32]). constructor. apply G1.
Qed.

(** * C54 *)
(** an object whose closing brace is missing is accepted *)
Theorem C54_no_brace_refuted : forall l t g post, gap false g -> members l t -> l <> [] ->
  exists text tree, json_parse (g ++ 123 :: t ++ 0 :: post) = Some (JsonNone, text, tree) /\ view text tree = Some (doc_root false false l).
Proof. intros. now apply parse_open. Qed.
(** the character after a block comment is lost *)
Theorem C54_block_comment_refuted : forall l t g s c post, gap false g -> cstring s -> ~ In 42 s -> c <> 0 -> members l t -> l <> [] ->
  exists text tree, json_parse (g ++ 123 :: 47 :: 42 :: s ++ 42 :: 47 :: c :: t ++ 125 :: post) = Some (JsonNone, text, tree) /\ view text tree = Some (doc_root false false l).
Proof. intros. now apply parse_block. Qed.
Example ex_block : members [Tree (Some (asc "b")) 0 zero_style (VInt 2 zero_analysis)] (q1 "'b':2").
Proof.
  apply (mb_last [] DoubleQuote (asc "b") [] Colon [] 0 (VInt 2 zero_analysis) (asc "2") []); try constructor.
  - apply (letter_name 98). unfold letter. lia.
  - apply (letter_name 98). unfold letter. lia.
  - lia.
  - exists [2]. split; [split; [constructor; [lia|constructor]|right; exists 2, []; split; [reflexivity|lia]]|split; reflexivity].
Qed.
(** a block comment at the end of the text: a null pointer is followed *)
Theorem C54_block_at_end_refuted : json_parse (q1 "{'a':1/* */" ++ [0]) = None.
Proof. now vm_compute. Qed.
(** a string with quotes gets more backslashes every time it is written *)
Theorem C54_quotes_refuted : forall n s post, name_ok DoubleQuote n -> Z.of_nat (List.length n) + 2 < max_text -> literal 34 s -> In 34 s -> Z.of_nat (List.length s) < max_text ->
  exists t s' text tree, json_write (doc_root false false [Tree (Some n) 0 zero_style (VStr false (Some s))]) compact_indent = Some t /\
    json_parse (t ++ post) = Some (JsonNone, text, tree) /\
    view text tree = Some (doc_root false false [Tree (Some n) 0 zero_style (VStr false (Some s'))]) /\ (List.length s < List.length s')%nat.
Proof.
  intros n s post Hn Ln Q I L. destruct (write_quotes n s Hn Ln Q L) as (t & W & D). destruct (document_parse _ t post D) as (text & tree & P & V).
  exists t, (quoted_again s), text, tree. split; [easy|]. split; [easy|]. split; [easy|]. now apply quoted_again_longer.
Qed.
Example ex_quotes : literal 34 (asc "a\" ++ [34]) /\ In 34 (asc "a\" ++ [34]).
Proof.
  split; [|cbn; auto]. split; [repeat constructor|]. split.
  - intros [|[|[|[|k]]]] E; try discriminate E. now exists 1%nat.
  - intros [|a [|b [|c r]]] E; try discriminate E. injection E as _ _ _ E. now destruct r.
Qed.
(** a newline before the brace makes the document one without braces *)
Theorem C54_newline_refuted : forall l t g g' post, gap false g -> gap true g' -> members l t ->
  exists text tree, json_parse (g ++ 10 :: g' ++ 123 :: t ++ 125 :: post) = Some (JsonNone, text, tree) /\ view text tree = Some (doc_root true false l).
Proof. intros. now apply parse_newline. Qed.
(** texts that end too early are read beyond their end: in a string, after an assignment, in an inner object, after a name *)
Theorem C54_overrun_refuted : json_parse (q1 "{'a':'b" ++ [0]) = None /\ json_parse (q1 "{'a':" ++ [0]) = None /\ json_parse (q1 "{'a':{'b':1" ++ [0]) = None /\ json_parse (q1 "{'a'" ++ [0]) = None /\ json_parse (asc "x" ++ [0]) = None.
Proof. now vm_compute. Qed.
(** members need no delimiter, a member may have no value, and text after the document is ignored *)
Definition outcome (t : list Z) : option (json_error * option (tree (list Z))) := ' (e, text, root) <- json_parse t ;; Some (e, view text root).
Theorem C54_accepted_refuted :
  outcome (q1 "{'a':1 'b':2}" ++ [0]) = outcome (q1 "{'a':1,'b':2}" ++ [0]) /\
  outcome (q1 "{'a':}" ++ [0]) = Some (JsonNone, Some (doc_root false false [Tree (Some (asc "a")) 0 zero_style VNone])) /\
  outcome (q1 "{'a':1}]]" ++ [0]) = outcome (q1 "{'a':1}" ++ [0]) /\
  outcome (q1 "[1,]" ++ [0]) = outcome (q1 "[1]" ++ [0]).
Proof. now vm_compute. Qed.
(** documents that come back with other members, without an error: an object followed by another member
    when there are no braces, and an object before a line in compact text *)
Definition bad_root1 : tree (list Z) := doc_root true false
  [Tree (Some (asc "a")) 0 zero_style (VBranch false []); Tree (Some (asc "b")) 0 zero_style (VInt 2 zero_analysis)].
Definition bad_root2 : tree (list Z) := doc_root false false
  [Tree (Some (asc "a")) 0 (Style false DoubleQuote Colon DelimLine 1 0) (VBranch false []); Tree (Some (asc "b")) 0 zero_style (VInt 2 zero_analysis)].
Definition other_members : list (tree (list Z)) :=
  [Tree (Some (asc "a")) 0 zero_style (VBranch false []); Tree None 0 zero_style (VStr false (Some (asc "b"))); Tree None 0 zero_style (VInt 2 zero_analysis)].
Definition again (root : tree (list Z)) (i : Z) : option (json_error * option (tree (list Z))) := t <- json_write root i ;; ' (e, r) <- outcome (t ++ [0]) ;; Some (e, option_map unstyled r).
Theorem C54_changed_refuted :
  outcome (q1 "'a':{},'b':2" ++ [0]) = Some (JsonNone, Some bad_root1) /\ again bad_root1 0 = Some (JsonNone, Some (unstyled (doc_root false false other_members))) /\
  outcome (q1 "{'a':{} |'b':2}" ++ [0]) = Some (JsonNone, Some bad_root2) /\ again bad_root2 compact_indent = Some (JsonNone, Some (unstyled (doc_root false false other_members))) /\
  unstyled (doc_root false false other_members) <> unstyled bad_root1 /\ unstyled (doc_root false false other_members) <> unstyled bad_root2.
Proof. repeat split; vm_compute; (reflexivity || discriminate). Qed.

Print Assumptions C53_parse.
Print Assumptions C53_write.
Print Assumptions C53_round_trip.
Print Assumptions C53_rewrite.
Print Assumptions C53_same_data.
Print Assumptions C53_compact_exact.
Print Assumptions C54_no_brace_refuted.
Print Assumptions C54_block_comment_refuted.
Print Assumptions C54_quotes_refuted.
Print Assumptions C54_newline_refuted.
