(** Proofs about JSON: reading whole documents. *)
From Coq Require Import String.
From Verif Require Import Base CStr CStrSpec CStrProofs CStrProofs2 Num NumSpec Print PrintSpec Node Json NodeProofs UriProofs JsonSpec JsonProofs.

Ltac norm := repeat (rewrite <- !app_assoc; cbn [app]).
Ltac lens := rewrite ?app_length; cbn [List.length]; rewrite ?app_length; cbn [List.length]; rewrite ?app_length; cbn [List.length]; lia.

Definition value_reads (p : Z) (v : value (list Z)) (t : list Z) : Prop :=
  (exists h r, t = h :: r /\ solid h /\ h <> 93 /\ h <> 0) /\
  forall f pre x rest, (2 * List.length t <= f)%nat -> after_int x -> exists t' v',
    List.length t' = List.length t /\
    parse_value f (pre ++ t ++ x :: rest) (List.length pre) = Some (pre ++ t' ++ x :: rest, inl (p, v', (List.length pre + List.length t)%nat)) /\
    forall pre' post, List.length pre' = List.length pre -> view_value (pre' ++ t' ++ post) v' = Some v.
Definition elements_read (l : list (tree (list Z))) (t : list Z) : Prop :=
  forall f pre rest nodes, (2 * List.length t + 2 <= f)%nat -> exists t' l',
    List.length t' = List.length t /\
    array_loop f (pre ++ t ++ 93 :: rest) (List.length pre) nodes = Some (pre ++ t' ++ 93 :: rest, nodes ++ l', Stop (List.length pre + List.length t)) /\
    forall pre' post, List.length pre' = List.length pre -> views (pre' ++ t' ++ post) l' = Some l.
Definition members_read (l : list (tree (list Z))) (t : list Z) : Prop :=
  forall f pre x rest nodes, (2 * List.length t + 2 <= f)%nat -> x = 125 \/ (x = 0 /\ l <> []) -> exists t' l',
    List.length t' = List.length t /\
    object_loop f (pre ++ t ++ x :: rest) (List.length pre) nodes = Some (pre ++ t' ++ x :: rest, nodes ++ l', Stop (List.length pre + List.length t)) /\
    forall pre' post, List.length pre' = List.length pre -> views (pre' ++ t' ++ post) l' = Some l.

(** what may follow a number *)
Lemma after_ok c : In c [32; 9; 10; 11; 12; 13; 47; 44; 124; 125; 93; 0] -> after_int c.
Proof. cbn [In]. intros H. unfold after_int. repeat (destruct H as [<-|H]; [split; [reflexivity|lia]|]). easy. Qed.
Lemma gap_after nl g c r : gap nl g -> after_int c -> exists x y, g ++ c :: r = x :: y /\ after_int x /\ (c <> 0 -> x <> 0).
Proof.
  intros G A. destruct G as [|w g W _ _|s g _ _ _]; cbn [app].
  - eauto.
  - exists w. eexists. split; [reflexivity|]. unfold white in W. split; [apply after_ok; cbn [In] in *; lia|cbn [In] in W; lia].
  - eexists 47, _. split; [reflexivity|]. split; [apply after_ok; cbn; lia|lia].
Qed.
Lemma solid_of c : ~ In c [32; 9; 10; 11; 12; 13; 47] -> solid c.
Proof. intros N. split; [unfold white; cbn [In] in *; lia|cbn [In] in N; lia]. Qed.

(** ** atoms *)
Lemma parse_string_ok q s pre rest : q = 34 \/ q = 39 \/ q = 96 -> literal q s ->
  parse_string (pre ++ (q :: s ++ [q]) ++ rest) (List.length pre) q =
    Some (pre ++ (q :: s ++ [0]) ++ rest, inl (0, VStr (q =? 96) (Some (At (S (List.length pre)))), (List.length pre + List.length (q :: s ++ [q]))%nat)) /\
  forall pre' post, List.length pre' = List.length pre -> string_at (pre' ++ (q :: s ++ [0]) ++ post) (At (S (List.length pre))) = Some s.
Proof.
  intros Q L. split.
  - unfold parse_string. replace (pre ++ (q :: s ++ [q]) ++ rest) with ((pre ++ [q]) ++ s ++ q :: rest) by (norm; reflexivity).
    replace (S (List.length pre)) with (List.length (pre ++ [q])) by lens. rewrite skipn_len, skip_literal_ok by (easy || lia). cbn [obind].
    rewrite <- app_length, app_assoc, wr_at. cbn [obind]. do 2 f_equal; [norm; reflexivity|]. f_equal. apply f_equal2; [reflexivity|lens].
  - intros pre' post E. destruct L as (C & _). pose proof (string_here (pre' ++ [q]) s [] post C) as H. rewrite <- E. replace (S (List.length pre')) with (List.length (pre' ++ [q])) by lens.
    rewrite <- H. f_equal. norm. reflexivity.
Qed.
Lemma string_reads q m s : (q = 34 \/ q = 39) /\ m = false \/ q = 96 /\ m = true -> literal q s -> value_reads 0 (VStr m (Some s)) (q :: s ++ [q]).
Proof.
  intros Q L. assert (Q' : q = 34 \/ q = 39 \/ q = 96) by tauto. split.
  - exists q, (s ++ [q]). split; [reflexivity|]. split; [apply solid_of; cbn; lia|lia].
  - intros f pre x rest F A. destruct f as [|f]; [cbn in F; lia|]. destruct (parse_string_ok q s pre (x :: rest) Q' L) as (P & V).
    exists (q :: s ++ [0]), (VStr m (Some (At (S (List.length pre))))). split; [lens|]. split.
    + cbn [parse_value]. cbn [app]. rewrite rd_at. cbn [obind]. rewrite strchr_yes by (cbn; lia). cbn [app] in P. rewrite P. assert (E : (q =? 96) = m) by (destruct Q as [([->| ->] & ->)|(-> & ->)]; reflexivity). now rewrite E.
    + intros pre' post E. cbn [view_value string_opt]. rewrite V by easy. reflexivity.
Qed.
Lemma numeral_head v t : numeral 10 v t -> exists h r, t = h :: r /\ (48 <= h <= 57 \/ (h = 45 /\ exists d r', r = d :: r' /\ 48 <= d <= 57)).
Proof.
  intros (ds & (F & C) & N & ->). assert (exists d r, ds = d :: r) as (d & r & ->) by (destruct C as [->|(d & r & -> & _)]; eauto).
  inversion F; subst. pose proof (digit_char_small d ltac:(easy)) as E. destruct (v <? 0); cbn [map app]; rewrite E.
  - exists 45. eexists. split; [reflexivity|]. right. split; [easy|]. do 2 eexists. split; [reflexivity|lia].
  - do 2 eexists. split; [reflexivity|]. lia.
Qed.
Lemma int_reads v t : - 2^63 < v < 2^63 -> numeral 10 v t -> value_reads 0 (VInt v zero_analysis) t.
Proof.
  intros Hv Nt. destruct (numeral_head v t Nt) as (h & r & E & Hh). assert (Hr : 48 <= h <= 57 \/ h = 45) by tauto. split.
  - exists h, r. split; [easy|]. split; [apply solid_of; cbn; lia|lia].
  - intros f pre x rest F A. exists t, (VInt v zero_analysis). split; [easy|]. split; [|reflexivity]. destruct f as [|f]; [subst t; cbn in F; lia|]. cbn [parse_value].
    assert (R : rd (pre ++ t ++ x :: rest) (List.length pre) = Some h) by (rewrite E; cbn [app]; apply rd_at). rewrite R. cbn [obind].
    rewrite strchr_no by (cbn; lia). rewrite not_alpha by (unfold letter; lia).
    assert (W : (if h =? 45 then d <- rd (pre ++ t ++ x :: rest) (S (List.length pre)) ;; Some (negb (char_is_digit d)) else Some false) = Some false).
    { destruct (Z.eqb_spec h 45) as [->|]; [|reflexivity]. destruct Hh as [Hh|(_ & d & r' & -> & Hd)]; [lia|]. subst t.
      replace (pre ++ (45 :: d :: r') ++ x :: rest) with ((pre ++ [45]) ++ d :: r' ++ x :: rest) by (norm; reflexivity). replace (S (List.length pre)) with (List.length (pre ++ [45])) by lens. rewrite rd_at. cbn [obind].
      unfold char_is_digit. destruct (Z.leb_spec 48 d), (Z.leb_spec d 57); try lia; reflexivity. }
    rewrite W. cbn [obind].
    assert (D : char_is_digit h || (h =? 43) || (h =? 45) || (h =? 46) = true).
    { unfold char_is_digit. rewrite !orb_true_iff, andb_true_iff, !Z.leb_le, !Z.eqb_eq. lia. }
    rewrite D, skipn_len, (parse_number_int v t x rest) by easy. reflexivity.
Qed.
Lemma word_reads w p r : word w p r -> value_reads p (VReal r zero_analysis) w.
Proof.
  unfold word. cbn [In]. intros H.
  assert (G : forall h t, w = h :: t -> solid h /\ h <> 93 /\ h <> 0 -> strchr [96; 34; 39] h = false -> (char_is_alpha h = true \/ h = 45 /\ exists d t', t = d :: t' /\ char_is_digit d = false) ->
    (forall x, parse_word words (w ++ x) = Some (inl (p, VReal r zero_analysis, List.length w))) -> value_reads p (VReal r zero_analysis) w).
  { intros h t -> Hh Sh Al Pw. split; [eauto|]. intros f pre x rest F A. exists (h :: t), (VReal r zero_analysis). split; [easy|]. split; [|reflexivity]. destruct f as [|f]; [cbn in F; lia|]. cbn [parse_value].
    assert (R : rd (pre ++ (h :: t) ++ x :: rest) (List.length pre) = Some h) by (cbn [app]; apply rd_at). rewrite R. cbn [obind]. rewrite Sh.
    assert (W : (if char_is_alpha h then Some true else if h =? 45 then d <- rd (pre ++ (h :: t) ++ x :: rest) (S (List.length pre)) ;; Some (negb (char_is_digit d)) else Some false) = Some true).
    { destruct Al as [->|(-> & d & t' & -> & Hd)]; [reflexivity|]. destruct (char_is_alpha 45); [reflexivity|]. cbn [Z.eqb].
      replace (pre ++ (45 :: d :: t') ++ x :: rest) with ((pre ++ [45]) ++ d :: t' ++ x :: rest) by (norm; reflexivity). replace (S (List.length pre)) with (List.length (pre ++ [45])) by lens. rewrite rd_at. cbn [obind]. rewrite Hd. reflexivity. }
    rewrite W. cbn [obind]. rewrite skipn_len, Pw. reflexivity. }
  repeat (destruct H as [H|H]; [injection H as <- <- <-; eapply G; [reflexivity|split; [apply solid_of; cbn; lia|split; discriminate]|reflexivity|(left; reflexivity) || (right; split; [reflexivity|do 2 eexists; split; reflexivity])|intros y; reflexivity]|]). easy.
Qed.

(** ** arrays *)
Lemma elements_nil g : gap true g -> elements_read [] g.
Proof.
  intros G f pre rest nodes F. exists g, []. split; [easy|]. split; [|reflexivity]. destruct f as [|f]; [lia|]. cbn [array_loop].
  destruct (gap_after true g 93 rest G ltac:(apply after_ok; cbn; lia)) as (x & y & E & _ & X0). specialize (X0 ltac:(lia)).
  assert (R : rd (pre ++ g ++ 93 :: rest) (List.length pre) = Some x) by (rewrite E; apply rd_at). rewrite R. cbn [obind]. rewrite (eqb_no x 0) by easy.
  rewrite trim_ok by (easy || (apply solid_of; cbn; lia)). cbn [obind]. rewrite app_assoc, <- app_length, rd_at. cbn [obind]. change (93 =? 93) with true. cbn match. rewrite app_nil_r. reflexivity.
Qed.
(** one element, up to what follows it *)
Lemma element_any g p v t g' z y f pre nodes : gap true g -> value_reads p v t -> gap true g' -> solid z -> after_int z -> (2 * List.length t <= f)%nat -> exists t' v',
  List.length t' = List.length t /\
  array_loop (S f) (pre ++ g ++ t ++ g' ++ z :: y) (List.length pre) nodes =
    (let q := List.length (pre ++ g ++ t' ++ g') in let text := pre ++ g ++ t' ++ g' ++ z :: y in let nodes := nodes ++ [Tree None p zero_style v'] in
     if z =? 44 then array_loop f text (S q) nodes else if z =? 93 then Some (text, nodes, Stop q) else Some (text, nodes, Err JsonArrayLeftOpen)) /\
  forall pre' post, List.length pre' = List.length (pre ++ g) -> view_value (pre' ++ t' ++ post) v' = Some v.
Proof.
  intros G ((h & r & Et & Sh & H93 & H0) & V) G' Sz Az F.
  destruct (gap_after true g' z y G' Az) as (x1 & y1 & E1 & A1 & _).
  destruct (V f (pre ++ g) x1 y1 F A1) as (t' & v' & L & P & W). exists t', v'. split; [easy|]. split; [|exact W].
  assert (X : exists x0 y0, g ++ t ++ g' ++ z :: y = x0 :: y0 /\ x0 <> 0).
  { destruct G as [|w g Ww _ _|s g _ _ _]; cbn [app]; [subst t; cbn [app]; eauto| |].
    - do 2 eexists. split; [reflexivity|]. unfold white in Ww. cbn [In] in Ww. lia.
    - do 2 eexists. split; [reflexivity|]. lia. }
  destruct X as (x0 & y0 & E0 & X0). cbn [array_loop]. rewrite E0, rd_at. cbn [obind]. rewrite (eqb_no x0 0) by easy. rewrite <- E0.
  assert (T : json_trim (pre ++ g ++ t ++ g' ++ z :: y) (List.length pre) false = Some (List.length pre + List.length g)%nat) by (rewrite Et; cbn [app]; now apply trim_ok).
  rewrite T. cbn [obind]. rewrite app_assoc, <- app_length.
  assert (R : rd ((pre ++ g) ++ t ++ g' ++ z :: y) (List.length (pre ++ g)) = Some h) by (rewrite Et; cbn [app]; apply rd_at). rewrite R. cbn [obind]. rewrite (eqb_no h 93) by easy.
  rewrite E1, P. cbn [obind]. rewrite <- E1.
  replace ((pre ++ g) ++ t' ++ g' ++ z :: y) with ((pre ++ g ++ t') ++ g' ++ z :: y) by (norm; reflexivity).
  replace (List.length (pre ++ g) + List.length t)%nat with (List.length (pre ++ g ++ t')) by lens.
  rewrite trim_ok by easy. cbn [obind]. rewrite app_assoc, <- app_length, rd_at. cbn [obind].
  replace (((pre ++ g ++ t') ++ g') ++ z :: y) with (pre ++ g ++ t' ++ g' ++ z :: y) by (norm; reflexivity). replace ((pre ++ g ++ t') ++ g') with (pre ++ g ++ t' ++ g') by (norm; reflexivity).
  reflexivity.
Qed.
Lemma element_step g p v t g' z y f pre nodes : gap true g -> value_reads p v t -> gap true g' -> z = 44 \/ z = 93 -> (2 * List.length t <= f)%nat -> exists t' v',
  List.length t' = List.length t /\
  array_loop (S f) (pre ++ g ++ t ++ g' ++ z :: y) (List.length pre) nodes =
    (let q := List.length (pre ++ g ++ t' ++ g') in let text := pre ++ g ++ t' ++ g' ++ z :: y in let nodes := nodes ++ [Tree None p zero_style v'] in
     if z =? 44 then array_loop f text (S q) nodes else Some (text, nodes, Stop q)) /\
  forall pre' post, List.length pre' = List.length (pre ++ g) -> view_value (pre' ++ t' ++ post) v' = Some v.
Proof.
  intros G V G' Z F. destruct (element_any g p v t g' z y f pre nodes G V G' ltac:(apply solid_of; cbn; lia) ltac:(apply after_ok; cbn; lia) F) as (t' & v' & L & P & W).
  exists t', v'. split; [easy|]. split; [|easy]. rewrite P. destruct Z as [-> | ->]; reflexivity.
Qed.
Lemma view_element text v' v p : view_value text v' = Some v -> view text (Tree None p zero_style v') = Some (Tree None p zero_style v).
Proof. intros H. rewrite view_tree. cbn [string_opt obind]. rewrite H. reflexivity. Qed.
Lemma elements_last g p v t g' : gap true g -> value_reads p v t -> gap true g' -> elements_read [Tree None p zero_style v] (g ++ t ++ g').
Proof.
  intros G V G' f pre rest nodes F. destruct f as [|f]; [lia|].
  destruct (element_step g p v t g' 93 rest f pre nodes G V G' ltac:(now right)) as (t' & v' & L & P & W); [rewrite !app_length in F; lia|].
  exists (g ++ t' ++ g'), [Tree None p zero_style v']. split; [lens|]. split.
  - replace (pre ++ (g ++ t ++ g') ++ 93 :: rest) with (pre ++ g ++ t ++ g' ++ 93 :: rest) by (norm; reflexivity). rewrite P. change (93 =? 44) with false. cbn zeta match. f_equal. apply f_equal2; [apply f_equal2; [norm; reflexivity|reflexivity]|f_equal; lens].
  - intros pre' post E. rewrite views_cons, views_nil. replace (pre' ++ (g ++ t' ++ g') ++ post) with ((pre' ++ g) ++ t' ++ (g' ++ post)) by (norm; reflexivity).
    rewrite (view_element _ v' v) by (apply W; rewrite !app_length; lia). reflexivity.
Qed.
Lemma elements_cons g p v t g' l r : gap true g -> value_reads p v t -> gap true g' -> elements_read l r -> elements_read (Tree None p zero_style v :: l) (g ++ t ++ g' ++ 44 :: r).
Proof.
  intros G V G' IH f pre rest nodes F. destruct f as [|f]; [lia|]. rewrite !app_length in F. cbn [List.length] in F.
  destruct (element_step g p v t g' 44 (r ++ 93 :: rest) f pre nodes G V G' ltac:(now left) ltac:(lia)) as (t' & v' & L & P & W).
  destruct (IH f (pre ++ g ++ t' ++ g' ++ [44]) rest (nodes ++ [Tree None p zero_style v']) ltac:(lia)) as (r' & l' & Lr & Pr & Wr).
  exists (g ++ t' ++ g' ++ 44 :: r'), (Tree None p zero_style v' :: l'). split; [lens|]. split.
  - replace (pre ++ (g ++ t ++ g' ++ 44 :: r) ++ 93 :: rest) with (pre ++ g ++ t ++ g' ++ 44 :: r ++ 93 :: rest) by (norm; reflexivity). rewrite P. change (44 =? 44) with true. cbn zeta match.
    replace (pre ++ g ++ t' ++ g' ++ 44 :: r ++ 93 :: rest) with ((pre ++ g ++ t' ++ g' ++ [44]) ++ r ++ 93 :: rest) by (norm; reflexivity).
    replace (S (List.length (pre ++ g ++ t' ++ g'))) with (List.length (pre ++ g ++ t' ++ g' ++ [44])) by lens. rewrite Pr. f_equal. apply f_equal2; [apply f_equal2; [norm; reflexivity|norm; reflexivity]|f_equal; lens].
  - intros pre' post E. rewrite views_cons. replace (pre' ++ (g ++ t' ++ g' ++ 44 :: r') ++ post) with ((pre' ++ g) ++ t' ++ (g' ++ 44 :: r' ++ post)) by (norm; reflexivity).
    rewrite (view_element _ v' v) by (apply W; rewrite !app_length; lia). cbn [obind].
    replace ((pre' ++ g) ++ t' ++ g' ++ 44 :: r' ++ post) with ((pre' ++ g ++ t' ++ g' ++ [44]) ++ r' ++ post) by (norm; reflexivity). rewrite Wr by (rewrite !app_length; lia). reflexivity.
Qed.
Lemma array_reads l t : elements_read l t -> value_reads 0 (VBranch true l) (91 :: t ++ [93]).
Proof.
  intros IH. split; [exists 91; eexists; split; [reflexivity|]; split; [apply solid_of; cbn; lia|lia]|]. intros f pre x rest F A. cbn [List.length] in F. rewrite app_length in F. cbn [List.length] in F.
  destruct f as [|[|f]]; [lia..|]. destruct (IH f (pre ++ [91]) (x :: rest) [] ltac:(lia)) as (t' & l' & L & P & W).
  exists (91 :: t' ++ [93]), (VBranch true l'). split; [lens|]. split.
  - cbn [parse_value]. cbn [app]. rewrite rd_at. cbn [obind]. rewrite strchr_no by (cbn; lia). rewrite not_alpha by (unfold letter; lia). change (91 =? 45) with false. cbn match. cbn [obind].
    change (char_is_digit 91 || (91 =? 43) || false || (91 =? 46)) with false. rewrite strchr_yes by (cbn; lia). cbn match. cbn [parse_object].
    pose proof (trim_ok pre [] 91 ((t ++ [93]) ++ x :: rest) (gap_nil _) ltac:(apply solid_of; cbn; lia)) as T. cbn [app List.length] in T. rewrite T, Nat.add_0_r. cbn [obind]. rewrite rd_at. cbn [obind]. change (91 =? 91) with true. cbn match.
    replace (pre ++ 91 :: (t ++ [93]) ++ x :: rest) with ((pre ++ [91]) ++ t ++ 93 :: x :: rest) by (norm; reflexivity). replace (S (List.length pre)) with (List.length (pre ++ [91])) by lens. rewrite P. cbn [obind].
    do 2 f_equal; [norm; reflexivity|]. do 2 f_equal. lens.
  - intros pre' post E. cbn [view_value]. replace (pre' ++ (91 :: t' ++ [93]) ++ post) with ((pre' ++ [91]) ++ t' ++ 93 :: post) by (norm; reflexivity). rewrite W by lens. reflexivity.
Qed.

(** ** objects *)
Lemma name_head ns n : name_ok ns n -> exists h r, name_text ns n = h :: r /\ solid h /\ h <> 125 /\ h <> 93 /\ h <> 0.
Proof.
  destruct ns; cbn [name_ok name_text].
  - intros _. exists 34. eexists. split; [reflexivity|]. split; [apply solid_of; cbn; lia|lia].
  - intros _. exists 39. eexists. split; [reflexivity|]. split; [apply solid_of; cbn; lia|lia].
  - intros (c & r & -> & H & _). exists c, r. split; [reflexivity|]. unfold name_start, letter in H. split; [apply solid_of; cbn; lia|lia].
Qed.
Lemma members_nil g : gap true g -> members_read [] g.
Proof.
  intros G f pre x rest nodes F Hx. assert (x = 125) as -> by (destruct Hx as [|(_ & N)]; easy). exists g, []. split; [easy|]. split; [|reflexivity]. destruct f as [|f]; [lia|]. cbn [object_loop].
  rewrite trim_ok by (easy || (apply solid_of; cbn; lia)). cbn [obind]. rewrite app_assoc, <- app_length, rd_at. cbn [obind]. change (125 =? 125) with true. cbn match. rewrite app_nil_r. reflexivity.
Qed.
Definition after_value (f : nat) (nodes : list (tree ptr)) (name : option ptr) (props : Z) (st : style) (v : value ptr) (text : list Z) (end_p : nat) : option (list Z * list (tree ptr) * result) :=
  p <- json_trim text end_p true ;;
  c <- rd text p ;;
  let (st, k) := delimiter st c (p - end_p) in
  let nodes := nodes ++ [Tree name props st v] in
  if c =? 0 then Some (text, nodes, Stop p)
  else
    p <- json_trim text (p + k) false ;;
    c <- rd text p ;;
    if c =? 0 then Some (text, nodes, Stop p) else object_loop f text p nodes.
Lemma member_step g ns n g1 a g2 p v t x y f pre nodes :
  gap true g -> name_ok ns n -> gap true g1 -> gap true g2 -> value_reads p v t -> after_int x -> (2 * List.length t <= f)%nat ->
  exists nb t' name v', List.length nb = List.length (name_block ns n g1 a) /\ List.length t' = List.length t /\
  object_loop (S f) (pre ++ g ++ name_block ns n g1 a ++ g2 ++ t ++ x :: y) (List.length pre) nodes =
    after_value f nodes (Some name) p (Style false ns a Comma 0 (width4 g1)) v' ((pre ++ g ++ nb ++ g2 ++ t') ++ x :: y) (List.length (pre ++ g ++ nb ++ g2 ++ t')) /\
  forall pre' post, List.length pre' = List.length pre ->
    string_opt (pre' ++ (g ++ nb ++ g2 ++ t') ++ post) (Some name) = Some (Some n) /\ view_value (pre' ++ (g ++ nb ++ g2 ++ t') ++ post) v' = Some v.
Proof.
  intros G Hn G1 G2 ((h & r & Et & Sh & _ & _) & V) A F.
  destruct (name_head ns n Hn) as (c & cr & En & Sc & C1 & C2 & C3).
  destruct (name_ok_read ns n g1 a Hn G1 (pre ++ g) (g2 ++ t ++ x :: y)) as (nb & k & Lnb & Pn & Wn). set (NB := name_block ns n g1 a) in *.
  destruct (V f (pre ++ g ++ nb ++ g2) x y F A) as (t' & v' & Lt & Pv & Wv).
  exists nb, t', (At (List.length (pre ++ g) + k)), v'. split; [easy|]. split; [easy|]. split.
  - cbn [object_loop].
    assert (Hd : exists z, NB = c :: z) by (subst NB; unfold name_block; rewrite En; cbn [app]; eauto). destruct Hd as (z & Hd).
    assert (T : json_trim (pre ++ g ++ NB ++ g2 ++ t ++ x :: y) (List.length pre) false = Some (List.length (pre ++ g))) by (rewrite Hd, app_length; cbn [app]; now apply trim_ok).
    rewrite T. cbn [obind]. rewrite (app_assoc pre g).
    assert (R : rd ((pre ++ g) ++ NB ++ g2 ++ t ++ x :: y) (List.length (pre ++ g)) = Some c) by (rewrite Hd; cbn [app]; apply rd_at). rewrite R. cbn [obind].
    rewrite (eqb_no c 125), strchr_no by (try easy; cbn; lia). rewrite Pn. cbn [obind].
    replace (S (List.length (pre ++ g) + (List.length NB - 1))) with (List.length (pre ++ g ++ nb)) by (rewrite (app_assoc pre), (app_length _ nb), Lnb, Hd; cbn [List.length]; lia).
    replace ((pre ++ g) ++ nb ++ g2 ++ t ++ x :: y) with ((pre ++ g ++ nb) ++ g2 ++ t ++ x :: y) by (norm; reflexivity).
    assert (T2 : json_trim ((pre ++ g ++ nb) ++ g2 ++ t ++ x :: y) (List.length (pre ++ g ++ nb)) false = Some (List.length (pre ++ g ++ nb) + List.length g2)%nat) by (rewrite Et; cbn [app]; now apply trim_ok).
    rewrite T2. cbn [obind]. replace (List.length (pre ++ g ++ nb) + List.length g2)%nat with (List.length (pre ++ g ++ nb ++ g2)) by lens.
    replace ((pre ++ g ++ nb) ++ g2 ++ t ++ x :: y) with ((pre ++ g ++ nb ++ g2) ++ t ++ x :: y) by (norm; reflexivity). rewrite Pv. cbn [obind].
    unfold after_value. replace ((pre ++ g ++ nb ++ g2) ++ t' ++ x :: y) with ((pre ++ g ++ nb ++ g2 ++ t') ++ x :: y) by (norm; reflexivity).
    replace (List.length (pre ++ g ++ nb ++ g2) + List.length t)%nat with (List.length (pre ++ g ++ nb ++ g2 ++ t')) by lens. reflexivity.
  - intros pre' post E. split.
    + cbn [string_opt]. replace (pre' ++ (g ++ nb ++ g2 ++ t') ++ post) with ((pre' ++ g) ++ nb ++ (g2 ++ t' ++ post)) by (norm; reflexivity). rewrite Wn by lens. reflexivity.
    + replace (pre' ++ (g ++ nb ++ g2 ++ t') ++ post) with ((pre' ++ g ++ nb ++ g2) ++ t' ++ post) by (norm; reflexivity). apply Wv. lens.
Qed.
Lemma view_member text name n v' v p st : string_opt text (Some name) = Some (Some n) -> view_value text v' = Some v -> view text (Tree (Some name) p st v') = Some (Tree (Some n) p st v).
Proof. intros H1 H2. rewrite view_tree, H1. cbn [obind]. rewrite H2. reflexivity. Qed.
Lemma members_last g ns n g1 a g2 p v t g3 : gap true g -> name_ok ns n -> gap true g1 -> gap true g2 -> value_reads p v t -> gap false g3 ->
  members_read [Tree (Some n) p (Style false ns a Comma 0 (width4 g1)) v] (g ++ name_block ns n g1 a ++ g2 ++ t ++ g3).
Proof.
  intros G Hn G1 G2 V G3 f pre x rest nodes F Hx. destruct f as [|f]; [lia|]. rewrite !app_length in F.
  destruct (gap_after false g3 x rest G3) as (x1 & y1 & E1 & A1 & _); [apply after_ok; cbn; destruct Hx as [->|(-> & _)]; lia|].
  destruct (member_step g ns n g1 a g2 p v t x1 y1 f pre nodes G Hn G1 G2 V A1 ltac:(lia)) as (nb & t' & name & v' & Lnb & Lt & P & W).
  exists (g ++ nb ++ g2 ++ t' ++ g3), [Tree (Some name) p (Style false ns a Comma 0 (width4 g1)) v']. split; [rewrite !app_length; lia|]. split.
  - replace (pre ++ (g ++ name_block ns n g1 a ++ g2 ++ t ++ g3) ++ x :: rest) with (pre ++ g ++ name_block ns n g1 a ++ g2 ++ t ++ x1 :: y1) by (rewrite <- E1; norm; reflexivity). rewrite P. unfold after_value. rewrite <- E1.
    rewrite trim_catch_ok; [|easy|left; apply solid_of; destruct Hx as [->|(-> & _)]; cbn; lia]. cbn [obind]. rewrite app_assoc, <- app_length, rd_at. cbn [obind].
    assert (Ft : (pre ++ g ++ nb ++ g2 ++ t') ++ g3 = pre ++ g ++ nb ++ g2 ++ t' ++ g3) by (norm; reflexivity). rewrite Ft.
    assert (Fl : List.length (pre ++ g ++ nb ++ g2 ++ t' ++ g3) = (List.length pre + List.length (g ++ name_block ns n g1 a ++ g2 ++ t ++ g3))%nat) by (rewrite !app_length; lia).
    destruct Hx as [->|(-> & _)].
    + assert (D : delimiter (Style false ns a Comma 0 (width4 g1)) 125 (List.length (pre ++ g ++ nb ++ g2 ++ t' ++ g3) - List.length (pre ++ g ++ nb ++ g2 ++ t')) = (Style false ns a Comma 0 (width4 g1), O)) by reflexivity.
      rewrite D. change (125 =? 0) with false. cbn match. rewrite Nat.add_0_r.
      pose proof (trim_ok (pre ++ g ++ nb ++ g2 ++ t' ++ g3) [] 125 rest (gap_nil _) ltac:(apply solid_of; cbn; lia)) as T. cbn [app List.length] in T. rewrite T, Nat.add_0_r. cbn [obind]. rewrite rd_at. cbn [obind].
      change (125 =? 0) with false. cbn match.
      pose proof (members_nil [] (gap_nil _) f (pre ++ g ++ nb ++ g2 ++ t' ++ g3) 125 rest (nodes ++ [Tree (Some name) p (Style false ns a Comma 0 (width4 g1)) v'])) as (q & l & Lq & Pq & _); [cbn; unfold name_block in F; rewrite !app_length in F; cbn in F; lia|now left|].
      destruct f as [|f]; [unfold name_block in F; rewrite !app_length in F; cbn in F; lia|]. cbn [object_loop] in *. cbn [app] in *. rewrite T. cbn [obind]. rewrite Nat.add_0_r, rd_at. cbn [obind]. change (125 =? 125) with true. cbn match.
      rewrite Fl. norm. reflexivity.
    + assert (D : delimiter (Style false ns a Comma 0 (width4 g1)) 0 (List.length (pre ++ g ++ nb ++ g2 ++ t' ++ g3) - List.length (pre ++ g ++ nb ++ g2 ++ t')) = (Style false ns a Comma 0 (width4 g1), O)) by reflexivity.
      rewrite D. change (0 =? 0) with true. cbn match. rewrite Fl. norm. reflexivity.
  - intros pre' post E. rewrite views_cons, views_nil. replace (pre' ++ (g ++ nb ++ g2 ++ t' ++ g3) ++ post) with (pre' ++ (g ++ nb ++ g2 ++ t') ++ g3 ++ post) by (norm; reflexivity).
    destruct (W pre' (g3 ++ post) E) as (W1 & W2). rewrite (view_member _ _ _ _ _ _ _ W1 W2). reflexivity.
Qed.
Lemma dc_facts d : (solid (delim_char d) \/ delim_char d = 10) /\ after_int (delim_char d) /\ delim_char d <> 0.
Proof. destruct d; (split; [(left; apply solid_of; cbn; lia) || (right; reflexivity)|split; [apply after_ok; cbn; lia|discriminate]]). Qed.
Lemma delimiter_ok ns a aw d g3 w : w = List.length g3 -> delimiter (Style false ns a Comma 0 aw) (delim_char d) w = (Style false ns a d (delim_width d g3) aw, 1%nat).
Proof. intros ->. destruct d; reflexivity. Qed.
Lemma members_cons g ns n g1 a g2 p v t g3 d l r : gap true g -> name_ok ns n -> gap true g1 -> gap true g2 -> value_reads p v t -> gap false g3 ->
  (l = [] -> gap true r) -> members_read l r ->
  members_read (Tree (Some n) p (Style false ns a d (delim_width d g3) (width4 g1)) v :: l) (g ++ name_block ns n g1 a ++ g2 ++ t ++ g3 ++ delim_char d :: r).
Proof.
  intros G Hn G1 G2 V G3 Gr IH f pre x rest nodes F Hx. destruct f as [|f]; [lia|]. rewrite !app_length in F. cbn [List.length] in F. set (dc := delim_char d) in *. pose proof (dc_facts d) as (Sd & Ad & D0). fold dc in Sd, Ad, D0.
  destruct (gap_after false g3 dc (r ++ x :: rest) G3 Ad) as (x1 & y1 & E1 & A1 & _).
  destruct (member_step g ns n g1 a g2 p v t x1 y1 f pre nodes G Hn G1 G2 V A1 ltac:(lia)) as (nb & t' & name & v' & Lnb & Lt & P & W).
  set (st := Style false ns a d (delim_width d g3) (width4 g1)).
  set (pre2 := pre ++ g ++ nb ++ g2 ++ t' ++ g3 ++ [dc]). set (nodes2 := nodes ++ [Tree (Some name) p st v']).
  assert (Lb : (0 < List.length (name_block ns n g1 a))%nat) by (unfold name_block; rewrite !app_length; cbn; lia).
  (* what the rest reads as *)
  assert (R : exists r' l', List.length r' = List.length r /\
    (q <- json_trim (pre2 ++ r ++ x :: rest) (List.length pre2) false ;; c <- rd (pre2 ++ r ++ x :: rest) q ;;
     if c =? 0 then Some (pre2 ++ r ++ x :: rest, nodes2, Stop q) else object_loop f (pre2 ++ r ++ x :: rest) q nodes2) =
    Some (pre2 ++ r' ++ x :: rest, nodes2 ++ l', Stop (List.length pre2 + List.length r)) /\
    forall pre' post, List.length pre' = List.length pre2 -> views (pre' ++ r' ++ post) l' = Some l).
  { assert (ET : (l = [] /\ x = 0) \/ (x = 125 \/ (x = 0 /\ l <> []))) by (destruct Hx as [->|(-> & _)]; [tauto|]; destruct l; [tauto|]; right; right; split; [easy|discriminate]).
    destruct ET as [(-> & ->)|ET].
    - specialize (Gr eq_refl). exists r, []. split; [easy|]. split; [|reflexivity]. rewrite trim_ok by (easy || (apply solid_of; cbn; lia)). cbn [obind]. rewrite (app_assoc pre2), <- app_length, rd_at. cbn [obind]. change (0 =? 0) with true. cbn match. now rewrite app_nil_r.
    - destruct (IH f pre2 x rest nodes2 ltac:(lia) ET) as (r' & l' & Lr & Pr & Wr). exists r', l'. split; [easy|]. split; [|easy].
      destruct f as [|f]; [lia|]. cbn [object_loop] in Pr. destruct (json_trim (pre2 ++ r ++ x :: rest) (List.length pre2) false) as [q|] eqn:T; [|discriminate]. cbn [obind] in Pr |- *.
      destruct (rd (pre2 ++ r ++ x :: rest) q) as [c|] eqn:Rq; [|discriminate]. cbn [obind] in Pr |- *.
      destruct (Z.eqb_spec c 0) as [->|C0]; [discriminate Pr|]. cbn [object_loop]. rewrite (trim_twice _ _ _ T). cbn [obind]. rewrite Rq. cbn [obind]. exact Pr. }
  destruct R as (r' & l' & Lr & Pr & Wr).
  exists (g ++ nb ++ g2 ++ t' ++ g3 ++ dc :: r'), (Tree (Some name) p st v' :: l'). split; [rewrite !app_length; cbn [List.length]; lia|]. split.
  - replace (pre ++ (g ++ name_block ns n g1 a ++ g2 ++ t ++ g3 ++ dc :: r) ++ x :: rest) with (pre ++ g ++ name_block ns n g1 a ++ g2 ++ t ++ x1 :: y1) by (rewrite <- E1; norm; reflexivity). rewrite P. unfold after_value. rewrite <- E1.
    rewrite trim_catch_ok by easy. cbn [obind]. rewrite app_assoc, <- app_length, rd_at. cbn [obind]. pose proof (fun w => delimiter_ok ns a (width4 g1) d g3 w) as DO. fold dc in DO. rewrite DO by lens. clear DO.
    fold st. rewrite (eqb_no dc 0) by easy. fold nodes2.
    replace (((pre ++ g ++ nb ++ g2 ++ t') ++ g3) ++ dc :: r ++ x :: rest) with (pre2 ++ r ++ x :: rest) by (unfold pre2; norm; reflexivity).
    replace (List.length ((pre ++ g ++ nb ++ g2 ++ t') ++ g3) + 1)%nat with (List.length pre2) by (unfold pre2; rewrite !app_length; cbn [List.length]; lia).
    rewrite Pr. f_equal. apply f_equal2; [apply f_equal2|f_equal].
    + unfold pre2. norm. reflexivity.
    + unfold nodes2. norm. reflexivity.
    + unfold pre2. rewrite !app_length. cbn [List.length]. lia.
  - intros pre' post E. rewrite views_cons. replace (pre' ++ (g ++ nb ++ g2 ++ t' ++ g3 ++ dc :: r') ++ post) with (pre' ++ (g ++ nb ++ g2 ++ t') ++ g3 ++ dc :: r' ++ post) by (norm; reflexivity).
    destruct (W pre' (g3 ++ dc :: r' ++ post) E) as (W1 & W2). rewrite (view_member _ _ _ _ _ _ _ W1 W2). cbn [obind].
    replace (pre' ++ (g ++ nb ++ g2 ++ t') ++ g3 ++ dc :: r' ++ post) with ((pre' ++ g ++ nb ++ g2 ++ t' ++ g3 ++ [dc]) ++ r' ++ post) by (norm; reflexivity). rewrite Wr by (unfold pre2; rewrite !app_length; lia). reflexivity.
Qed.
Lemma object_reads l t : members_read l t -> value_reads 0 (VBranch false l) (123 :: t ++ [125]).
Proof.
  intros IH. split; [exists 123; eexists; split; [reflexivity|]; split; [apply solid_of; cbn; lia|lia]|]. intros f pre x rest F A. cbn [List.length] in F. rewrite app_length in F. cbn [List.length] in F.
  destruct f as [|[|f]]; [lia..|]. destruct (IH f (pre ++ [123]) 125 (x :: rest) [] ltac:(lia) ltac:(now left)) as (t' & l' & L & P & W).
  exists (123 :: t' ++ [125]), (VBranch false l'). split; [lens|]. split.
  - cbn [parse_value]. cbn [app]. rewrite rd_at. cbn [obind]. rewrite strchr_no by (cbn; lia). rewrite not_alpha by (unfold letter; lia). change (123 =? 45) with false. cbn match. cbn [obind].
    change (char_is_digit 123 || (123 =? 43) || false || (123 =? 46)) with false. rewrite strchr_yes by (cbn; lia). cbn match. cbn [parse_object].
    pose proof (trim_ok pre [] 123 ((t ++ [125]) ++ x :: rest) (gap_nil _) ltac:(apply solid_of; cbn; lia)) as T. cbn [app List.length] in T. rewrite T, Nat.add_0_r. cbn [obind]. rewrite rd_at. cbn [obind]. change (123 =? 91) with false. change (123 =? 123) with true. cbn match.
    replace (pre ++ 123 :: (t ++ [125]) ++ x :: rest) with ((pre ++ [123]) ++ t ++ 125 :: x :: rest) by (norm; reflexivity). replace (S (List.length pre)) with (List.length (pre ++ [123])) by lens. rewrite P. cbn [obind].
    do 2 f_equal; [norm; reflexivity|]. do 2 f_equal. lens.
  - intros pre' post E. cbn [view_value]. replace (pre' ++ (123 :: t' ++ [125]) ++ post) with ((pre' ++ [123]) ++ t' ++ 125 :: post) by (norm; reflexivity). rewrite W by lens. reflexivity.
Qed.

(** ** everything *)
Scheme value_text_mut := Minimality for value_text Sort Prop
with elements_mut := Minimality for elements Sort Prop
with members_mut := Minimality for members Sort Prop.
Combined Scheme text_mut from value_text_mut, elements_mut, members_mut.
Lemma members_nil_gap l t : members l t -> l = [] -> gap true t.
Proof. intros H. inversion H; subst; intros; easy. Qed.
Theorem texts_read : (forall p v t, value_text p v t -> value_reads p v t) /\ (forall l t, elements l t -> elements_read l t) /\
  (forall l t, members l t -> (l = [] -> gap true t) /\ members_read l t).
Proof.
  apply text_mut.
  - intros q s Q L. apply string_reads; [left; tauto|easy].
  - intros s L. apply string_reads; [now right|easy].
  - intros v t H N. now apply int_reads.
  - intros w p r H. now apply word_reads.
  - intros l t _ IH. now apply array_reads.
  - intros l t _ (_ & IH). now apply object_reads.
  - intros g G. now apply elements_nil.
  - intros g p v t g' G _ IH G'. now apply elements_last.
  - intros g p v t g' l r G _ IH G' _ IHl. now apply elements_cons.
  - intros g G. split; [easy|now apply members_nil].
  - intros g ns n g1 a g2 p v t g3 G N G1 G2 _ IH G3. split; [easy|now apply members_last].
  - intros g ns n g1 a g2 p v t g3 d l r G N G1 G2 _ IH G3 _ (IHg & IHl). split; [easy|now apply members_cons].
Qed.

Lemma gap_split g : gap true g -> exists ga gb, g = ga ++ gb /\ gap false ga /\ gap true gb /\ (gb = [] \/ exists r, gb = 10 :: r).
Proof.
  induction 1 as [|w g W _ G (ga & gb & -> & A & B & C)|s g Cs Ns G (ga & gb & -> & A & B & C)].
  - exists [], []. split; [easy|]. split; [constructor|]. split; [constructor|now left].
  - destruct (Z.eq_dec w 10) as [->|N].
    + exists [], (10 :: ga ++ gb). split; [easy|]. split; [constructor|]. split; [apply gap_white; auto|right; eauto].
    + exists (w :: ga), gb. split; [easy|]. split; [apply gap_white; auto|easy].
  - exists (47 :: 47 :: s ++ 10 :: ga), gb. split; [cbn [app]; now rewrite <- app_assoc|]. split; [now apply gap_comment|easy].
Qed.
Lemma loop_trim f text p q nodes : json_trim text p false = Some q -> object_loop f text p nodes = object_loop f text q nodes.
Proof. intros T. destruct f as [|f]; [reflexivity|]. cbn [object_loop]. rewrite T, (trim_twice _ _ _ T). reflexivity. Qed.
Lemma members_start l t : members l t -> l <> [] -> exists g h r, t = g ++ h :: r /\ gap true g /\ solid h /\ h <> 91 /\ h <> 123 /\ h <> 0.
Proof.
  assert (N : forall ns n x, name_ok ns n -> exists h r, name_text ns n ++ x = h :: r /\ solid h /\ h <> 91 /\ h <> 123 /\ h <> 0).
  { intros ns n x. destruct ns; cbn [name_ok name_text].
    - intros _. exists 34. eexists. split; [reflexivity|]. split; [apply solid_of; cbn; lia|lia].
    - intros _. exists 39. eexists. split; [reflexivity|]. split; [apply solid_of; cbn; lia|lia].
    - intros (c & r & -> & H & _). exists c, (r ++ x). split; [reflexivity|]. unfold name_start, letter in H. split; [apply solid_of; cbn; lia|lia]. }
  intros H Ne. inversion H; subst; [easy| |].
  - destruct (N ns n (g1 ++ [assign_char a]) ltac:(easy)) as (h & r & E & Q). rewrite E. exists g, h. eexists. split; [reflexivity|easy].
  - destruct (N ns n (g1 ++ [assign_char a]) ltac:(easy)) as (h & r0 & E & Q). rewrite E. exists g, h. eexists. split; [reflexivity|easy].
Qed.
Lemma view_root text cfg arr l' l : views text l' = Some l -> view text (json_root cfg (VBranch arr l')) = Some (doc_root cfg arr l).
Proof. intros H. unfold json_root. rewrite view_tree. cbn [string_opt obind view_value]. rewrite H. reflexivity. Qed.
Theorem document_parse root t post : document root t -> exists text' r', json_parse (t ++ post) = Some (JsonNone, text', r') /\ view text' r' = Some root.
Proof.
  destruct texts_read as (_ & EL & MB). intros H. destruct H as [g l t G M|g l t G E|l t c Ne M Hc].
  - destruct (MB l t M) as (_ & R). set (text := (g ++ 123 :: t ++ [125]) ++ post).
    destruct (R (2 * List.length text + 2)%nat (g ++ [123]) 125 post []) as (t' & l' & L & P & W); [unfold text; rewrite !app_length; cbn [List.length]; rewrite app_length; cbn [List.length]; lia|now left|].
    exists ((g ++ [123]) ++ t' ++ 125 :: post), (json_root false (VBranch false l')). split; [|apply view_root; now apply W].
    assert (T : text = g ++ 123 :: t ++ 125 :: post) by (unfold text; norm; reflexivity). unfold json_parse. fold text.
    assert (T1 : json_trim text 0 true = Some (List.length g)) by (rewrite T; apply (trim_catch_ok [] g 123); [easy|left; apply solid_of; cbn; lia]). rewrite T1. cbn [obind].
    assert (R1 : rd text (List.length g) = Some 123) by (rewrite T; apply rd_at). rewrite R1. cbn [obind].
    replace (2 * List.length text + 3)%nat with (S (2 * List.length text + 2)) by lia. cbn [parse_object].
    assert (T2 : json_trim text (List.length g) false = Some (List.length g)).
    { pose proof (trim_ok g [] 123 (t ++ 125 :: post) (gap_nil _) ltac:(apply solid_of; cbn; lia)) as X. cbn [app List.length] in X. rewrite T, X. now rewrite Nat.add_0_r. }
    rewrite T2. cbn [obind]. rewrite R1. cbn [obind]. change (123 =? 91) with false. change (123 =? 123) with true. cbn match.
    assert (T3 : text = (g ++ [123]) ++ t ++ 125 :: post) by (unfold text; norm; reflexivity). replace (S (List.length g)) with (List.length (g ++ [123])) by lens.
    rewrite T3 at 2. rewrite P. reflexivity.
  - set (text := (g ++ 91 :: t ++ [93]) ++ post).
    destruct (EL l t E (2 * List.length text + 2)%nat (g ++ [91]) post []) as (t' & l' & L & P & W); [unfold text; rewrite !app_length; cbn [List.length]; rewrite app_length; cbn [List.length]; lia|].
    exists ((g ++ [91]) ++ t' ++ 93 :: post), (json_root false (VBranch true l')). split; [|apply view_root; now apply W].
    assert (T : text = g ++ 91 :: t ++ 93 :: post) by (unfold text; norm; reflexivity). unfold json_parse. fold text.
    assert (T1 : json_trim text 0 true = Some (List.length g)) by (rewrite T; apply (trim_catch_ok [] g 91); [easy|left; apply solid_of; cbn; lia]). rewrite T1. cbn [obind].
    assert (R1 : rd text (List.length g) = Some 91) by (rewrite T; apply rd_at). rewrite R1. cbn [obind].
    replace (2 * List.length text + 3)%nat with (S (2 * List.length text + 2)) by lia. cbn [parse_object].
    assert (T2 : json_trim text (List.length g) false = Some (List.length g)).
    { pose proof (trim_ok g [] 91 (t ++ 93 :: post) (gap_nil _) ltac:(apply solid_of; cbn; lia)) as X. cbn [app List.length] in X. rewrite T, X. now rewrite Nat.add_0_r. }
    rewrite T2. cbn [obind]. rewrite R1. cbn [obind]. change (91 =? 91) with true. cbn match.
    assert (T3 : text = (g ++ [91]) ++ t ++ 93 :: post) by (unfold text; norm; reflexivity). replace (S (List.length g)) with (List.length (g ++ [91])) by lens.
    rewrite T3 at 2. rewrite P. reflexivity.
  - destruct (MB l t M) as (_ & R). set (text := (t ++ [c]) ++ post).
    destruct (R (2 * List.length text + 2)%nat [] c post []) as (t' & l' & L & P & W); [unfold text; rewrite !app_length; cbn [List.length]; lia|destruct Hc as [->| ->]; auto|]. cbn [app List.length Nat.add] in P.
    exists (t' ++ c :: post), (json_root true (VBranch false l')). split; [|apply view_root; now apply (W [])].
    destruct (members_start l t M Ne) as (g & h & r & Et & G & Sh & H1 & H2 & H0). destruct (gap_split g G) as (ga & gb & Eg & Ga & Gb & Hb).
    assert (T : text = ga ++ gb ++ h :: r ++ c :: post) by (unfold text; rewrite Et, Eg; norm; reflexivity). unfold json_parse. fold text.
    assert (T1 : json_trim text 0 true = Some (List.length ga) /\ exists c0, rd text (List.length ga) = Some c0 /\ strchr [123; 91] c0 = false).
    { destruct Hb as [->|(b & ->)]; cbn [app] in T; rewrite T.
      - split; [apply (trim_catch_ok [] ga h); [easy|now left]|]. exists h. split; [apply rd_at|apply strchr_no; cbn; lia].
      - split; [apply (trim_catch_ok [] ga 10); [easy|now right]|]. exists 10. split; [apply rd_at|reflexivity]. }
    destruct T1 as (T1 & c0 & R0 & S0). rewrite T1. cbn [obind]. rewrite R0. cbn [obind].
    replace (2 * List.length text + 3)%nat with (S (2 * List.length text + 2)) by lia. cbn [parse_object].
    assert (T2 : json_trim text (List.length ga) false = Some (List.length g)) by (rewrite T, trim_ok by easy; f_equal; rewrite Eg, app_length; reflexivity). rewrite T2. cbn [obind].
    assert (T4 : text = g ++ h :: r ++ c :: post) by (rewrite T, Eg; norm; reflexivity).
    assert (R1 : rd text (List.length g) = Some h) by (rewrite T4; apply rd_at). rewrite R1. cbn [obind]. rewrite (eqb_no h 91), (eqb_no h 123) by easy.
    assert (T5 : json_trim text 0 false = Some (List.length g)) by (rewrite T4; now apply (trim_ok [] g h)).
    rewrite <- (loop_trim _ _ _ _ [] T5). assert (T6 : text = t ++ c :: post) by (unfold text; norm; reflexivity). rewrite T6 at 2. rewrite P. cbn [obind]. rewrite S0. reflexivity.
Qed.
