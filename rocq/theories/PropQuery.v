(** C89: zpl_adt_query. *)
From Coq Require Import String.
From Verif Require Import Base CStr CStrSpec CStrProofs Num NumSpec NumProofs PropNum FloatSpec Print PrintSpec PrintProofs Node NodeProofs AdtNumSpec AdtNumProofs AdtNumProofs2 Query QuerySpec QueryProofs.
Open Scope string_scope. Open Scope Z_scope. Open Scope list_scope.
Set Default Timeout 120. 

Lemma leading_exists r : cstring r -> exists ds, leading ds r.
Proof.
  induction r as [|c r IH]; intros C.
  - exists []. split; [constructor|]. exists []. now split.
  - inversion C as [|? ? Hc C']; subst. destruct (Z_le_dec 48 c) as [A|A]; [destruct (Z_le_dec c 57) as [B|B]|].
    + destruct (IH C') as (ds & D & q & -> & Q). exists (c - 48 :: ds). split; [constructor; [unfold dig; lia|easy]|]. exists q. split; [|easy]. cbn [chars map app]. f_equal. lia.
    + exists []. split; [constructor|]. exists (c :: r). split; [easy|]. intros ? ? [= <- <-]. lia.
    + exists []. split; [constructor|]. exists (c :: r). split; [easy|]. intros ? ? [= <- <-]. lia.
Qed.
Lemma number_pos ds : Forall dig ds -> 0 <= number 10 ds.
Proof. intros D. exact (NumProofs.number_nonneg 10 ds (chars ds) ltac:(lia) (chars_den ds D)). Qed.
Lemma word_split w : cstring w -> exists neg r ds, w = (if neg : bool then [45] else []) ++ r /\ (neg = false -> forall q, r <> 45 :: q) /\ leading ds r.
Proof.
  intros C. destruct w as [|c w]; [|destruct (Z.eq_dec c 45) as [->|N]].
  - destruct (leading_exists [] C) as (ds & H). exists false, [], ds. split; [easy|]. split; [easy|exact H].
  - inversion C as [|? ? _ C']; subst. destruct (leading_exists w C') as (ds & H). exists true, w, ds. split; [easy|]. split; [easy|exact H].
  - destruct (leading_exists _ C) as (ds & H). exists false, (c :: w), ds. split; [easy|]. split; [|exact H]. intros _ q [= -> _]. easy.
Qed.
Lemma look_inv t arr nodes s c q x r : t_value t = VBranch arr nodes -> tidy t -> seg_ok s -> seg_text s = c :: q -> look t arr nodes c (seg_text s ++ 0 :: x) = Some r -> step t s r.
Proof.
  intros E T Ok Eh K. pose proof Ok as (C & Sl & H). destruct (tidy_inv t arr nodes T E) as (Tn & Nn). destruct s as [w|k v|v]; cbn [seg_text] in *.
  - unfold look in K. destruct H as (c' & r' & E' & N). rewrite Eh in E'. injection E' as <- <-. destruct (Z.eqb_spec c 91); [easy|]. unfold step. rewrite E. destruct arr; cbn [negb] in K.
    + destruct (word_split w C) as (neg & rr & ds & Ew & Hm & Ld). destruct (index_ok w (signed neg (number 10 ds))) with (x := x) as (A & B); [now exists neg, rr, ds|].
      exists (signed neg (number 10 ds)). assert (Nn' : 0 <= number 10 ds) by (apply number_pos; now destruct Ld).
      destruct (Z_lt_le_dec (Z.abs (signed neg (number 10 ds))) (2^63)) as [L|L]; [|rewrite (B L) in K; discriminate K]. destruct (A L) as (m & Em). rewrite Em in K. cbn [obind] in K. injection K as <-.
      split; [exists neg, rr, ds; split; [easy|]; split; [easy|]; split; [easy|]; split; [destruct neg; cbn [signed] in L; lia|easy]|]. set (i := signed neg (number 10 ds)) in *.
      destruct (Z.leb_spec 0 i), (Z.ltb_spec i 0); try lia; cbn [andb]; [|easy]. destruct (Z.ltb_spec i (Z.of_nat (List.length nodes))); [easy|]. replace (nth_error nodes (Z.to_nat i)) with (@None doc); [reflexivity|]. symmetry. apply nth_error_None. lia.
    + unfold find_name in K. destruct (search0 (fun t => same (t_name t) (w ++ 0 :: x)) (fun y => t_name y = Some w) nodes) as (q' & Eq & F').
      * intros y I. specialize (Nn eq_refl). rewrite Forall_forall in Nn. destruct (Nn y I) as (nm & -> & Cn). destruct (same_ok nm w x Cn C) as (b & -> & B). exists b. split; [easy|]. rewrite B. split; congruence.
      * rewrite Eq in K. cbn [obind] in K. injection K as <-. now exists q'.
  - assert (K' : exists r', step t (Field k v) r').
    { assert (Ckv : cstring k /\ cstring v). { inversion C as [|? ? _ C']; subst. apply cstring_app in C' as (Ck & C'). inversion C' as [|? ? _ C'']; subst. apply cstring_app in C'' as (Cv & _). easy. }
      destruct H as (K1 & K2 & V). destruct (bracket_field t arr nodes k v x E T (proj1 Ckv) (proj2 Ckv) K1 K2 V) as (r' & _ & St). now exists r'. }
    destruct K' as (r' & St). pose proof (look_ok t arr nodes (Field k v) c q x r' E T Ok Eh St) as K'. cbn [seg_text] in K'. rewrite K in K'. injection K' as ->. exact St.
  - destruct H as (V1 & V2). assert (Cv : cstring v). { inversion C as [|? ? _ C']; subst. now apply cstring_app in C' as (Cv & _). }
    destruct arr.
    + destruct (bracket_value t nodes v x E T Cv V1 V2) as (r' & _ & St). pose proof (look_ok t true nodes (Value v) c q x r' E T Ok Eh St) as K'. cbn [seg_text] in K'. rewrite K in K'. injection K' as ->. exact St.
    + injection Eh as <- _. unfold look in K. change (91 =? 91) with true in K. cbn [tl app] in K. rewrite <- app_assoc in K. cbn [app] in K. rewrite (bracket_refused t nodes v x Cv V1 V2) in K. discriminate K.
Qed.
Lemma step_child t s p x : tidy t -> step t s (Some (p, x)) -> tidy x.
Proof.
  intros T St. unfold step in St. destruct (t_value t) as [| | | |arr l] eqn:E; try discriminate St. destruct (tidy_inv t arr l T E) as (Tn & _). rewrite Forall_forall in Tn.
  assert (B : forall q P, first P l q -> below q = Some (p, x) -> tidy x). { intros [(i & y)|] P F [= <- <-]. destruct F as (F & _). apply nth_error_In in F. now apply Tn. }
  destruct arr, s as [w|k v|v].
  - destruct St as (i & _ & Ei). destruct (i <? 0); [discriminate Ei|]. destruct (nth_error l (Z.to_nat i)) as [y|] eqn:Ey; [|discriminate Ei]. injection Ei as -> ->. apply nth_error_In in Ey. now apply Tn.
  - destruct St as (q & F & Eq). now apply (B q _ F).
  - destruct St as (q & F & Eq). now apply (B q _ F).
  - destruct St as (q & F & Eq). now apply (B q _ F).
  - destruct St as [(_ & [= -> ->])|(_ & Y)]; [easy|discriminate Y].
  - easy.
Qed.
Lemma uri_cstring segs u : uri_text segs u -> Forall seg_ok segs -> cstring u.
Proof.
  assert (SL : forall sl, slash sl -> cstring sl) by (intros sl [->| ->]; repeat constructor; lia).
  induction 1 as [sl H|sl s H|sl s segs u H U IH]; intros F.
  - now apply SL.
  - inversion F as [|? ? (C & _) _]; subst. apply cstring_app. split; [now apply SL|easy].
  - inversion F as [|? ? (C & _) F']; subst. apply cstring_app. split; [now apply SL|]. apply cstring_app. split; [easy|]. constructor; [lia|now apply IH].
Qed.
Lemma leaf_step t s r : (forall arr l, t_value t <> VBranch arr l) -> (step t s r <-> r = None).
Proof. intros N. unfold step. destruct (t_value t) as [| | | |arr l] eqn:E; try easy. now destruct (N arr l). Qed.
Lemma leaf_query f t sl w x : (forall arr l, t_value t <> VBranch arr l) -> slash sl -> (exists c q, w = c :: q /\ c <> 0 /\ c <> 47) -> query (S f) (Some t) (sl ++ w ++ x) = Some None.
Proof.
  intros N Sl (c & q & -> & N0 & N1). cbn [query]. destruct Sl as [->| ->]; cbn [app rd nth_error obind tl].
  - destruct (Z.eqb_spec c 47); [easy|]. cbn [rd nth_error obind]. destruct (Z.eqb_spec c 0); [easy|]. destruct (t_value t) as [| | | |arr l] eqn:E; try easy. now destruct (N arr l).
  - change (47 =? 47) with true. cbn match. cbn [tl rd nth_error obind]. destruct (Z.eqb_spec c 0); [easy|]. destruct (t_value t) as [| | | |arr l] eqn:E; try easy. now destruct (N arr l).
Qed.
(** a path is walked segment by segment; where no walk exists the behaviour is undefined *)
Theorem C89_query : forall segs u t r f x, uri_text segs u -> Forall seg_ok segs -> Forall (fun s => small (List.length (seg_text s))) segs -> tidy t -> (List.length u < f)%nat ->
  (query f (Some t) (u ++ 0 :: x) = Some r <-> walk t segs r).
Proof.
  intros segs u t r f x U. revert t r f. induction U as [sl H|sl s H|sl s segs u H U IH]; intros t r f Ok Sm T L.
  - destruct f as [|f]; [lia|]. assert (query (S f) (Some t) (sl ++ 0 :: x) = Some (Some [])) as -> by (destruct H as [->| ->]; reflexivity).
    split; [intros [= <-]; constructor|]. intros W. inversion W; subst. reflexivity.
  - destruct f as [|f]; [lia|]. inversion Ok as [|? ? Os _]; subst. inversion Sm as [|? ? Ss _]; subst. rewrite <- app_assoc.
    assert (D : (exists arr l, t_value t = VBranch arr l) \/ (forall arr l, t_value t <> VBranch arr l)) by (destruct (t_value t); [right|right|right|right|left]; try easy; eauto).
    destruct D as [(arr & l & E)|NB].
    + destruct (query_seg f t arr l sl s [] x E H Os Ss ltac:(constructor) ltac:(now left)) as (c & q & buf & Es & Q). rewrite app_nil_l in Q. rewrite Q.
      split.
      * intros K. destruct (look t arr l c (seg_text s ++ 0 :: buf)) as [fd|] eqn:Lk; [|discriminate K]. cbn [obind] in K. injection K as <-. apply (look_inv t arr l s c q buf fd E T Os Es) in Lk.
        destruct fd as [(p & y)|]; [|now apply w_stop]. cbn [option_map fst]. replace (Some p) with (option_map (app p) (Some [])) by (cbn; now rewrite app_nil_r). apply w_go with y; [easy|constructor].
      * intros W. inversion W as [|? ? ? St|? ? ? p y q' St W']; subst.
        -- rewrite (look_ok t arr l s c q buf None E T Os Es St). reflexivity.
        -- rewrite (look_ok t arr l s c q buf _ E T Os Es St). inversion W'; subst. cbn. now rewrite app_nil_r.
    + rewrite leaf_query by (try easy; destruct (seg_head s Os) as (c & q & ? & ? & ?); eauto). split.
      * intros [= <-]. apply w_stop. now apply leaf_step.
      * intros W. inversion W as [|? ? ? St|? ? ? p y q' St W']; subst; [easy|]. now apply leaf_step in St.
  - destruct f as [|f]; [lia|]. inversion Ok as [|? ? Os Ok']; subst. inversion Sm as [|? ? Ss Sm']; subst. rewrite <- !app_assoc.
    assert (Cu : cstring u) by now apply (uri_cstring segs).
    assert (Lf : (List.length u < f)%nat) by (rewrite !app_length in L; cbn [List.length] in L; lia).
    assert (D : (exists arr l, t_value t = VBranch arr l) \/ (forall arr l, t_value t <> VBranch arr l)) by (destruct (t_value t); [right|right|right|right|left]; try easy; eauto).
    destruct D as [(arr & l & E)|NB].
    + destruct (query_seg f t arr l sl s (47 :: u) x E H Os Ss ltac:(constructor; [lia|easy]) ltac:(right; now exists u)) as (c & q & buf & Es & Q). rewrite Q. cbn [tl].
      split.
      * intros K. destruct (look t arr l c (seg_text s ++ 0 :: buf)) as [fd|] eqn:Lk; [|discriminate K]. cbn [obind] in K. apply (look_inv t arr l s c q buf fd E T Os Es) in Lk.
        destruct fd as [(p & y)|].
        -- destruct (query f (Some y) (u ++ 0 :: x)) as [r0|] eqn:Q0; [|discriminate K]. cbn [obind] in K. injection K as <-. apply IH in Q0; try easy; [|now apply (step_child t s p)]. now apply w_go with y.
        -- destruct f as [|f]; [lia|]. rewrite query_none in K by easy. injection K as <-. now apply w_stop.
      * intros W. inversion W as [|? ? ? St|? ? ? p y q' St W']; subst.
        -- rewrite (look_ok t arr l s c q buf None E T Os Es St). cbn [obind]. destruct f as [|f]; [lia|]. now apply query_none.
        -- rewrite (look_ok t arr l s c q buf _ E T Os Es St). cbn [obind]. apply (IH y q' f) in W'; try easy; [|now apply (step_child t s p)]. rewrite W'. reflexivity.
    + rewrite leaf_query by (try easy; destruct (seg_head s Os) as (c & q & ? & ? & ?); eauto). split.
      * intros [= <-]. apply w_stop. now apply leaf_step.
      * intros W. inversion W as [|? ? ? St|? ? ? p y q' St W']; subst; [easy|]. now apply leaf_step in St.
Qed.
(** in an array every word that does not begin with a digit, a minus or a bracket finds the first element *)
Theorem C89_word_refuted : forall t y l c q f x, t_value t = VBranch true (y :: l) -> tidy t -> cstring (c :: q) -> ~ In 47 (c :: q) -> c <> 45 -> c <> 91 -> ~ 48 <= c <= 57 -> small (List.length (c :: q)) -> (List.length (c :: q) < f)%nat ->
  query f (Some t) ((c :: q) ++ 0 :: x) = Some (Some [O]).
Proof.
  intros t y l c q f x E T C S N1 N2 N3 L F.
  apply (C89_query [Word (c :: q)] (c :: q) t (Some [O]) f x); try easy.
  - apply (ut_last [] (Word (c :: q))). now left.
  - constructor; [|constructor]. split; [exact C|]. split; [exact S|]. now exists c, q.
  - constructor; [exact L|constructor].
  - change (Some [O]) with (option_map (app [O]) (Some [])). apply w_go with y; [|constructor]. unfold step. rewrite E. exists 0. split; [|reflexivity].
    exists false, (c :: q), []. split; [easy|]. split; [intros _ q' [= X _]; easy|]. split; [|split; [reflexivity|reflexivity]]. split; [constructor|]. exists (c :: q). split; [easy|]. intros a b [= <- <-]. easy.
Qed.
Lemma skip_none w c x : cstring w -> exists n, str_skip (w ++ 0 :: x) c = Some n /\ exists d, rd (w ++ 0 :: x) n = Some d /\ (~ In c w -> d = 0).
Proof.
  intros C. destruct (skip_ok w x c C) as (n & E & L & N & H). exists n. split; [easy|]. destruct (Nat.eq_dec n (List.length w)) as [->|Nl]; [exists 0; split; [apply rd_at|easy]|].
  assert (L' : (n < List.length w)%nat) by lia. destruct (nth_error w n) as [d|] eqn:Ed; [|apply nth_error_None in Ed; lia]. exists d. split; [unfold rd; rewrite nth_error_app1 by easy; easy|].
  intros Nc. exfalso. apply Nc. rewrite <- (H d eq_refl). now apply nth_error_In in Ed.
Qed.
(** a bracket that is not closed before the next slash fails an assertion, also when it begins a name *)
Theorem C89_unclosed_refuted : forall t arr l w f x, t_value t = VBranch arr l -> cstring w -> ~ In 47 w -> ~ In 93 w -> small (S (List.length w)) -> query (S f) (Some t) (91 :: w ++ 0 :: x) = None.
Proof.
  intros t arr l w f x E C S N L. cbn [query rd nth_error obind]. change (91 =? 47) with false. cbn match. cbn [rd nth_error obind]. change (91 =? 0) with false. cbn match. rewrite E.
  assert (K : str_skip (91 :: w ++ 0 :: x) 47 = Some (Datatypes.S (List.length w))).
  { apply (skip_end (91 :: w)); intros [X|X]; try lia; [now apply (cstring_nz w)|easy]. }
  rewrite K. cbn [obind]. destruct (bprintf_prec (91 :: w) (Datatypes.S (List.length w)) x) as (r & B); [constructor; [lia|easy]|cbn; lia|exact L|].
  assert (F : firstn (Datatypes.S (List.length w)) (91 :: w) = 91 :: w) by (cbn [firstn]; f_equal; apply firstn_all).
  rewrite F in B. cbn [app] in B. rewrite B. cbn [obind].
  assert (R : rd (91 :: w ++ 0 :: x) (Datatypes.S (List.length w)) = Some 0) by (exact (rd_at (91 :: w) 0 x)). rewrite R. cbn [obind]. change (91 =? 91) with true. cbn match. cbn [tl]. unfold bracket.
  destruct (skip_none w 61 r C) as (e & -> & d & Ed & _). destruct (skip_none w 93 r C) as (e2 & -> & d2 & Ed2 & D2). cbn [obind]. rewrite Ed, Ed2. cbn [obind]. rewrite (D2 N). change (0 =? 0) with true. now rewrite orb_true_r.
Qed.
(** so does a value lookup in an object *)
Theorem C89_object_value_refuted : forall t l v f x, t_value t = VBranch false l -> tidy t -> cstring v -> ~ In 47 v -> ~ In 61 v -> ~ In 93 v -> small (S (S (List.length v))) -> (S (S (List.length v)) < f)%nat ->
  query f (Some t) (91 :: v ++ 93 :: 0 :: x) = None.
Proof.
  intros t l v f x E T C N1 N2 N3 L F. destruct (query f (Some t) (91 :: v ++ 93 :: 0 :: x)) as [r|] eqn:Q; [|easy]. exfalso.
  assert (Len : List.length (seg_text (Value v)) = S (S (List.length v))) by (cbn [seg_text List.length]; rewrite app_length; cbn; lia).
  assert (Eu : 91 :: v ++ 93 :: 0 :: x = seg_text (Value v) ++ 0 :: x) by (cbn [seg_text app]; rewrite <- app_assoc; reflexivity). rewrite Eu in Q.
  apply (C89_query [Value v] (seg_text (Value v))) in Q.
  - inversion Q as [|? ? ? St|? ? ? p y q' St W']; subst; unfold step in St; now rewrite E in St.
  - apply (ut_last [] (Value v)). now left.
  - constructor; [|constructor]. split; [|split; [|easy]].
    + cbn [seg_text]. constructor; [lia|]. apply cstring_app. split; [easy|]. constructor; [lia|constructor].
    + cbn [seg_text]. intros [X|X]; [lia|]. rewrite in_app_iff in X. destruct X as [X|[X|[]]]; [easy|lia].
  - constructor; [now rewrite Len|constructor].
  - exact T.
  - now rewrite Len.
Qed.
(** a member without a name is dereferenced *)
Theorem C89_nameless_refuted : forall t y l c q f x, t_value t = VBranch false (y :: l) -> t_name y = None -> cstring (c :: q) -> ~ In 47 (c :: q) -> c <> 91 -> small (List.length (c :: q)) ->
  query (S f) (Some t) ((c :: q) ++ 0 :: x) = None.
Proof.
  intros t y l c q f x E N C S N1 L.
  destruct (query_seg f t false (y :: l) [] (Word (c :: q)) [] x E ltac:(now left)) as (c' & q' & buf & Es & Q).
  - split; [exact C|]. split; [exact S|]. now exists c, q.
  - exact L.
  - constructor.
  - now left.
  - cbn [app seg_text] in Q, Es |- *. rewrite Q. injection Es as <- <-. unfold look. destruct (Z.eqb_spec c 91); [easy|]. cbn [negb]. unfold find_name. cbn [search]. rewrite N. reflexivity.
Qed.

(** ** Cases *)
Definition leaf (n : string) (v : Node.value (list Z)) : doc := Tree (Some (asc n)) 0 zero_style v.
Definition int (n : string) (i : Z) : doc := leaf n (VInt i zero_analysis).
Definition str (n s : string) : doc := leaf n (VStr false (Some (asc s))).
Definition obj (n : string) (l : list doc) : doc := leaf n (VBranch false l).
Definition anon (t : doc) : doc := set_name None t.
Definition sample : doc :=
  obj "" [obj "a" [obj "b" [int "c" 5]]; leaf "arr" (VBranch true [anon (obj "" [int "foo" 7; str "bar" "x"]); anon (obj "" [int "foo" 123; str "bar" "y"]); anon (str "" "apple"); anon (int "" 3)]); int "d/e" 1; obj "" [int "z" 2]].
Definition q (s : string) := query 60 (Some sample) (asc s ++ [0]).
Lemma cstringb s : forallb (fun c => (0 <? c) && (c <? 256)) s = true -> cstring s.
Proof. intros H. apply Forall_forall. intros c I. rewrite forallb_forall in H. specialize (H c I). lia. Qed.
Lemma int_tidy n i : - 2^63 < i < 2^63 -> tidy (Tree n 0 zero_style (VInt i zero_analysis)).
Proof.
  intros H. apply tidy_leaf; try easy. intros j a [= <- <-]. destruct (NodeProofs.numeral_exists i H) as (s & N). exists s. split; [|split; [apply (numeral_cs 10 i); [lia|easy]|pose proof (NodeProofs.numeral_len i s H N); lia]].
  unfold print_number. cbn [t_value t_props neg_zero zero_analysis obind]. change (0 =? PROPS_IS_HEX) with false. cbn match. now rewrite (fprintf_lld i s).
Qed.
Lemma branch_tidy n b l : Forall tidy l -> (b = false -> Forall named l) -> tidy (Tree n 0 zero_style (VBranch b l)).
Proof. intros F N. now apply tidy_branch with b l. Qed.
Lemma str_tidy n s : cstring s -> tidy (Tree n 0 zero_style (VStr false (Some s))).
Proof. intros C. apply tidy_leaf; try easy. now intros m u [= <- <-]. Qed.
Example C89_sample_tidy : tidy sample.
Proof.
  assert (N : forall s p st v, cstring s -> named (Tree (Some s) p st v)) by (intros s p st v C; now exists s).
  repeat first [apply int_tidy; lia|apply str_tidy; apply cstringb; reflexivity|apply branch_tidy; [|intros Z0; try discriminate Z0]|constructor|apply N; apply cstringb; reflexivity].
Qed.
Example C89_example_uri : uri_text [Word (asc "arr"); Field (asc "foo") (asc "123"); Word (asc "bar")] (asc "/arr//[foo=123]/bar") /\
  Forall seg_ok [Word (asc "arr"); Field (asc "foo") (asc "123"); Word (asc "bar")] /\ q "/arr//[foo=123]/bar" = Some (Some [1; 1; 1]%nat).
Proof.
  split; [|split; [|vm_compute; reflexivity]].
  - apply (ut_more [47] (Word (asc "arr")) _ (asc "/[foo=123]/bar")); [now right|]. apply (ut_more [47] (Field (asc "foo") (asc "123")) _ (asc "bar")); [now right|]. apply (ut_last [] (Word (asc "bar"))). now left.
  - assert (NI : forall c l, existsb (Z.eqb c) l = false -> ~ In c l). { intros c l H I. assert (existsb (Z.eqb c) l = true) by (apply existsb_exists; exists c; split; [easy|apply Z.eqb_refl]). congruence. }
    repeat match goal with |- Forall _ _ => constructor end; (split; [apply cstringb; reflexivity|]; split; [apply NI; reflexivity|]); cbn [asc]; try (do 2 eexists; split; [reflexivity|cbn; lia]); repeat split; apply NI; reflexivity.
Qed.
Example C89_examples : q "" = Some (Some []) /\ q "a/b/c" = Some (Some [0; 0; 0]%nat) /\ q "a/b/" = Some (Some [0; 0]%nat) /\ q "arr/1/bar" = Some (Some [1; 1; 1]%nat) /\
  q "arr/[apple]" = Some (Some [1; 2]%nat) /\ q "arr/[3]" = Some (Some [1; 3]%nat) /\ q "arr/9" = Some None /\ q "a/x/c" = Some None.
Proof. repeat split; vm_compute; reflexivity. Qed.
(** other surprises: a word as an index; an object matched by its own field; text behind the bracket; a slash in a name; extra slashes; the empty name *)
Theorem C89_paths_refuted : q "arr/pear" = Some (Some [1; 0]%nat) /\ q "arr/-0" = Some (Some [1; 0]%nat) /\ q "arr/3rd" = Some (Some [1; 3]%nat) /\ q "a/b/[c=5]" = Some (Some [0; 0]%nat) /\ q "arr/[foo]=123" = Some (Some [1; 1]%nat) /\
  q "arr/[foo=7]8" = Some (Some [1; 0]%nat) /\ q "d/e" = Some None /\ q "a///b" = Some None /\ q "//z" = Some (Some [3; 0]%nat) /\ q "[d" = None /\ q "[5]" = None /\ q "arr/[bar=x/y]" = None /\ q "arr/99999999999999999999" = None.
Proof. repeat split; vm_compute; reflexivity. Qed.
Print Assumptions C89_query. Print Assumptions C89_word_refuted. Print Assumptions C89_unclosed_refuted. Print Assumptions C89_object_value_refuted. Print Assumptions C89_nameless_refuted. Print Assumptions C89_paths_refuted.
