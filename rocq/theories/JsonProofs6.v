(** Proofs about JSON: texts that are refused. *)
From Coq Require Import String.
From Verif Require Import Base CStr CStrSpec CStrProofs CStrProofs2 Num NumSpec Print PrintSpec PrintProofs2 Node Json NodeProofs UriProofs JsonSpec JsonProofs JsonProofs2 JsonProofs3 JsonProofs5.

Lemma begun_loop s : begun s -> forall f pre rest nodes, (2 * List.length s <= f)%nat -> exists s' nodes' f',
  List.length s' = List.length s /\ (f <= f' + 2 * List.length s)%nat /\
  array_loop f (pre ++ s ++ rest) (List.length pre) nodes = array_loop f' ((pre ++ s') ++ rest) (List.length (pre ++ s')) nodes'.
Proof.
  induction 1 as [|g p v t g' r G V G' B IH]; intros f pre rest nodes F.
  - exists [], nodes, f. rewrite app_nil_r. split; [easy|]. split; [cbn; lia|reflexivity].
  - rewrite !app_length in F. cbn [List.length] in F. destruct f as [|f]; [lia|]. apply (proj1 texts_read) in V.
    destruct (element_step g p v t g' 44 (r ++ rest) f pre nodes G V G' ltac:(now left) ltac:(lia)) as (t' & v' & L & P & _).
    destruct (IH f (pre ++ g ++ t' ++ g' ++ [44]) rest (nodes ++ [Tree None p zero_style v']) ltac:(lia)) as (s' & nodes' & f' & Ls & Lf & Q).
    exists (g ++ t' ++ g' ++ 44 :: s'), nodes', f'. split; [lens|]. split; [rewrite !app_length; cbn [List.length]; lia|].
    replace (pre ++ (g ++ t ++ g' ++ 44 :: r) ++ rest) with (pre ++ g ++ t ++ g' ++ 44 :: r ++ rest) by (norm; reflexivity). rewrite P. change (44 =? 44) with true. cbn zeta match.
    replace (pre ++ g ++ t' ++ g' ++ 44 :: r ++ rest) with ((pre ++ g ++ t' ++ g' ++ [44]) ++ r ++ rest) by (norm; reflexivity).
    replace (S (List.length (pre ++ g ++ t' ++ g'))) with (List.length (pre ++ g ++ t' ++ g' ++ [44])) by lens. rewrite Q.
    f_equal; [norm; reflexivity|lens].
Qed.
(** an array at the start of the text *)
Lemma array_start g x : gap false g -> json_parse (g ++ 91 :: x) =
  (' (text, nodes, r) <- array_loop (2 * List.length (g ++ 91 :: x) + 2) (g ++ 91 :: x) (S (List.length g)) [] ;; Some (match r with Stop _ => JsonNone | Err e => e end, text, json_root false (VBranch true nodes))).
Proof.
  intros G. assert (S9 : solid 91) by (apply solid_of; cbn; lia). unfold json_parse. pose proof (trim_catch_ok [] g 91 x G (or_introl S9)) as T1. cbn [app List.length Nat.add] in T1. rewrite T1. cbn [obind]. rewrite rd_at. cbn [obind].
  replace (2 * List.length (g ++ 91%Z :: x) + 3)%nat with (S (2 * List.length (g ++ 91%Z :: x) + 2)) by lia. cbn [parse_object].
  pose proof (trim_ok g [] 91 x (gap_nil _) S9) as T. cbn [app List.length] in T. rewrite T, Nat.add_0_r. cbn [obind]. rewrite rd_at. cbn [obind]. change (91 =? 91) with true. cbn match.
  destruct (array_loop (2 * List.length (g ++ 91 :: x) + 2) (g ++ 91 :: x) (S (List.length g)) []) as [((text, nodes), r)|]; reflexivity.
Qed.
Lemma array_begun g s rest : gap false g -> begun s -> exists pre nodes f, (2 * List.length rest + 2 <= f)%nat /\
  json_parse (g ++ 91 :: s ++ rest) = (' (text, nodes, r) <- array_loop f (pre ++ rest) (List.length pre) nodes ;; Some (match r with Stop _ => JsonNone | Err e => e end, text, json_root false (VBranch true nodes))).
Proof.
  intros G B. rewrite array_start by easy. set (F := (2 * List.length (g ++ 91%Z :: s ++ rest) + 2)%nat).
  destruct (begun_loop s B F (g ++ [91]) rest []) as (s' & nodes & f' & Ls & Lf & Q); [unfold F; rewrite !app_length; cbn [List.length]; rewrite !app_length; lia|].
  exists ((g ++ [91]) ++ s'), nodes, f'. split; [unfold F in Lf; rewrite !app_length in Lf; cbn [List.length] in Lf; rewrite !app_length in Lf; lia|].
  rewrite <- Q. clear. f_equal. f_equal; [norm; reflexivity|lens].
Qed.
Lemma left_open g s g1 p v t g2 z post : gap false g -> begun s -> gap true g1 -> value_text p v t -> gap true g2 -> solid z -> after_int z -> z <> 44 -> z <> 93 ->
  exists text root, json_parse (g ++ 91 :: s ++ g1 ++ t ++ g2 ++ z :: post) = Some (JsonArrayLeftOpen, text, root).
Proof.
  intros G B G1 V G2 Sz Az N1 N2. destruct (array_begun g s (g1 ++ t ++ g2 ++ z :: post) G B) as (pre & nodes & f & Lf & ->). rewrite !app_length in Lf. apply (proj1 texts_read) in V.
  destruct f as [|f]; [lia|]. destruct (element_any g1 p v t g2 z post f pre nodes G1 V G2 Sz Az ltac:(cbn [List.length] in Lf; lia)) as (t' & v' & L & P & _).
  rewrite P. cbn zeta. rewrite (eqb_no z 44), (eqb_no z 93) by easy. cbn [obind]. do 2 eexists. reflexivity.
Qed.
Lemma never_closed g s post : gap false g -> begun s -> exists text root, json_parse (g ++ 91 :: s ++ 0 :: post) = Some (JsonInternal, text, root).
Proof.
  intros G B. destruct (array_begun g s (0 :: post) G B) as (pre & nodes & f & Lf & ->). destruct f as [|f]; [cbn in Lf; lia|]. cbn [array_loop]. rewrite rd_at. cbn [obind]. change (0 =? 0) with true. cbn match. cbn [obind]. do 2 eexists. reflexivity.
Qed.
(** no constant is a prefix *)
Lemma prefix_spec : forall w s, cstring w -> In 0 s -> has_prefix s (w ++ [0]) = Some (if list_eq_dec Z.eq_dec (firstn (List.length w) s) w then true else false).
Proof.
  induction w as [|c w IH]; intros s C I.
  - destruct s; [destruct I|]. reflexivity.
  - inversion C; subst. destruct s as [|d s]; [destruct I|]. cbn [app has_prefix List.length firstn]. rewrite (eqb_no c 0) by lia.
    destruct (Z.eqb_spec d c) as [->|N].
    + rewrite IH; [|easy|destruct I; [lia|easy]]. destruct (list_eq_dec Z.eq_dec (firstn (List.length w) s) w), (list_eq_dec Z.eq_dec (c :: firstn (List.length w) s) (c :: w)); congruence.
    + destruct (list_eq_dec Z.eq_dec (d :: firstn (List.length w) s) (c :: w)); [congruence|]. reflexivity.
Qed.
Lemma words_refused s : In 0 s -> (forall w p r, word w p r -> firstn (List.length w) s <> w) -> parse_word words s = Some (inr JsonUnknownKeyword).
Proof.
  intros I N. assert (G : forall ws, (forall w p r, In (w, p, r) ws -> cstring w /\ firstn (List.length w) s <> w) -> parse_word ws s = Some (inr JsonUnknownKeyword)).
  { induction ws as [|((w, p), r) ws IH]; intros H; [reflexivity|]. destruct (H w p r ltac:(now left)) as (C & F). cbn [parse_word]. rewrite prefix_spec by easy. cbn [obind].
    destruct (list_eq_dec Z.eq_dec (firstn (List.length w) s) w); [easy|]. apply IH. intros. apply (H w0 p0 r0). now right. }
  apply G. intros w p r W. split; [|now apply (N w p r)]. unfold words in W. cbn [In] in W. repeat (destruct W as [W|W]; [injection W as <- <- <-; repeat constructor|]). easy.
Qed.

(** ** objects *)
Lemma no_hex_total : forall k r, (k <= List.length r)%nat -> exists b, no_hex r k = Some b.
Proof.
  induction k as [|k IH]; intros r L; [now exists true|]. destruct r as [|c r]; [cbn in L; lia|]. cbn [no_hex rd nth_error obind tl]. destruct (char_is_hex_digit c); [now exists false|]. apply IH. cbn in L. lia.
Qed.
Lemma not_hex c : ~ hex_digit c -> char_is_hex_digit c = false.
Proof. intros N. apply not_true_iff_false. now rewrite hex_char. Qed.
Lemma validate_bad x x1 x2 x3 x4 b : ~ control x1 -> Forall (fun x => ~ hex_digit x) [x1; x2; x3; x4] -> x1 <> 0 -> forall a, cstring a ->
  validate_name ((a ++ 92 :: x1 :: x2 :: x3 :: x4 :: b) ++ 0 :: x) = Some false.
Proof.
  intros Nc Nh N0. inversion Nh as [|? ? H1 Nh1]; subst. inversion Nh1 as [|? ? H2 Nh2]; subst. inversion Nh2 as [|? ? H3 Nh3]; subst. inversion Nh3 as [|? ? H4 _]; subst.
  induction a as [|c a IH]; intros C.
  - cbn [app validate_name]. change (92 =? 0) with false. change (92 =? 92) with true. cbn match. cbn [rd nth_error obind]. unfold is_control. rewrite strchr_no by easy.
    cbn [no_hex rd nth_error obind tl]. rewrite !not_hex by easy. reflexivity.
  - inversion C; subst. specialize (IH ltac:(easy)). cbn [app validate_name]. rewrite (eqb_no c 0) by lia. destruct (Z.eqb_spec c 92) as [->|]; [|cbn [obind]; exact IH].
    set (r := (a ++ 92 :: x1 :: x2 :: x3 :: x4 :: b) ++ 0 :: x) in *.
    assert (L : (4 <= List.length r)%nat) by (unfold r; rewrite !app_length; cbn [List.length]; lia).
    destruct (no_hex_total 4 r L) as (h & Eh). destruct r as [|d r'] eqn:Er; [cbn in L; lia|]. cbn [rd nth_error obind]. destruct (is_control d); [exact IH|]. rewrite Eh. cbn [obind]. destruct h; [reflexivity|exact IH].
Qed.
Definition closes (q : Z) (n : list Z) : Prop := forall prev x, prev = q -> control_skip (n ++ q :: x) prev q = Some (List.length n).
Lemma quoted_bad q n g1 a pre rest : q = 34 \/ q = 39 -> cstring n -> closes q n -> bad_escape n -> gap true g1 ->
  exists text, parse_name (pre ++ (q :: n ++ q :: g1 ++ [assign_char a]) ++ rest) (List.length pre) = Some (text, inr JsonInvalidName).
Proof.
  intros Hq C Nq Nb G. set (ac := assign_char a) in *. pose proof (ac_solid a) as (Sa & Aa & A0 & As). fold ac in Sa, Aa, A0, As.
  unfold parse_name. cbn [app]. rewrite rd_at. cbn [obind].
  assert (T : (q =? 34) || (q =? 39) || char_is_alpha q || (q =? 95) || (q =? 36) = true) by (destruct Hq as [-> | ->]; reflexivity). rewrite T.
  assert (T' : (q =? 34) || (q =? 39) = true) by (destruct Hq as [-> | ->]; reflexivity). rewrite T'.
  replace (pre ++ q :: (n ++ q :: g1 ++ [ac]) ++ rest) with ((pre ++ [q]) ++ n ++ q :: g1 ++ ac :: rest) by (rewrite <- !app_assoc; cbn [app]; rewrite <- !app_assoc; reflexivity).
  replace (S (List.length pre)) with (List.length (pre ++ [q])) by (rewrite app_length; cbn; lia).
  rewrite skipn_len, Nq by easy. cbn [obind].
  replace (List.length (pre ++ [q]) + List.length n)%nat with (List.length ((pre ++ [q]) ++ n)) by (rewrite app_length; lia).
  rewrite app_assoc, wr_at. cbn [obind].
  replace (((pre ++ [q]) ++ n) ++ 0 :: g1 ++ ac :: rest) with (((pre ++ [q]) ++ n ++ [0]) ++ g1 ++ ac :: rest) by (rewrite <- !app_assoc; reflexivity).
  replace (S (List.length ((pre ++ [q]) ++ n))) with (List.length ((pre ++ [q]) ++ n ++ [0])) by (rewrite !app_length; cbn [List.length]; lia).
  rewrite trim_ok by easy. cbn [obind].
  replace (rd (((pre ++ [q]) ++ n ++ [0]) ++ g1 ++ ac :: rest) (List.length ((pre ++ [q]) ++ n ++ [0]) + List.length g1)) with (Some ac)
    by (rewrite app_assoc, <- app_length; symmetry; apply rd_at).
  cbn [obind]. rewrite (eqb_no ac 0), Aa by easy. cbn [negb andb]. rewrite As.
  assert (X : exists x, rd (((pre ++ [q]) ++ n ++ [0]) ++ g1 ++ ac :: rest) (List.length ((pre ++ [q]) ++ n ++ [0])) = Some x).
  { destruct g1 as [|h tl]; cbn [app]; eexists; apply rd_at. }
  destruct X as (x & X). rewrite X. cbn [obind].
  replace (((pre ++ [q]) ++ n ++ [0]) ++ g1 ++ ac :: rest) with ((pre ++ [q]) ++ n ++ 0 :: g1 ++ ac :: rest) by (rewrite <- !app_assoc; reflexivity).
  assert (V : validate_name (skipn (List.length (pre ++ [q])) ((pre ++ [q]) ++ n ++ 0 :: g1 ++ ac :: rest)) = Some false).
  { rewrite skipn_len. destruct Nb as (a0 & x1 & x2 & x3 & x4 & b & -> & Nc & Nh). apply Forall_app in C. destruct C as (Ca & Cb). apply Forall_inv_tail, Forall_inv in Cb. cbn beta in Cb. apply validate_bad; [easy|easy|lia|easy]. }
  destruct Hq as [-> | ->]; change (34 =? 34) with true; change (39 =? 34) with false; cbn match; cbn [obind]; rewrite V; cbn [obind]; eexists; reflexivity.
Qed.
Lemma object_start g x : gap false g -> json_parse (g ++ 123 :: x) =
  (' (text, nodes, r) <- object_loop (2 * List.length (g ++ 123 :: x) + 2) (g ++ 123 :: x) (S (List.length g)) [] ;; Some (match r with Stop _ => JsonNone | Err e => e end, text, json_root false (VBranch false nodes))).
Proof.
  intros G. assert (S9 : solid 123) by (apply solid_of; cbn; lia). unfold json_parse. pose proof (trim_catch_ok [] g 123 x G (or_introl S9)) as T1. cbn [app List.length Nat.add] in T1. rewrite T1. cbn [obind]. rewrite rd_at. cbn [obind].
  replace (2 * List.length (g ++ 123%Z :: x) + 3)%nat with (S (2 * List.length (g ++ 123%Z :: x) + 2)) by lia. cbn [parse_object].
  pose proof (trim_ok g [] 123 x (gap_nil _) S9) as T. cbn [app List.length] in T. rewrite T, Nat.add_0_r. cbn [obind]. rewrite rd_at. cbn [obind]. change (123 =? 91) with false. change (123 =? 123) with true. cbn match.
  destruct (object_loop (2 * List.length (g ++ 123 :: x) + 2) (g ++ 123 :: x) (S (List.length g)) []) as [((text, nodes), r)|]; reflexivity.
Qed.
Lemma object_name_refused g g1 h y e : gap false g -> gap true g1 -> solid h -> h <> 125 -> h <> 93 -> h <> 0 ->
  (exists text, parse_name ((g ++ 123 :: g1) ++ h :: y) (List.length (g ++ 123 :: g1)) = Some (text, inr e)) ->
  exists text root, json_parse (g ++ 123 :: g1 ++ h :: y) = Some (e, text, root).
Proof.
  intros G G1 Sh N1 N2 N0 (text & P). rewrite object_start by easy. rewrite Nat.add_comm. cbn [Nat.add object_loop].
  replace (g ++ 123 :: g1 ++ h :: y) with ((g ++ [123]) ++ g1 ++ h :: y) by (norm; reflexivity). replace (S (List.length g)) with (List.length (g ++ [123])) by lens. rewrite trim_ok by easy. cbn [obind].
  rewrite app_assoc, <- app_length, rd_at. cbn [obind]. rewrite (eqb_no h 125) by easy. rewrite strchr_no by (cbn; intuition lia).
  replace ((g ++ [123]) ++ g1) with (g ++ 123 :: g1) by (norm; reflexivity). rewrite P. cbn [obind]. do 2 eexists. reflexivity.
Qed.
Lemma double_closes n : literal 34 n -> closes 34 n.
Proof.
  intros (C & B & E) prev x ->. apply control_skip_double; [easy| |].
  - intros k H. destruct (B k H) as (j & -> & J). exact J.
  - destruct n as [|c n _] using rev_ind; [cbn; lia|]. intros L. apply (E n). f_equal. change (34 :: n ++ [c]) with ((34 :: n) ++ [c]) in L. rewrite last_app in L. now subst.
Qed.
Lemma single_closes n : cstring n -> ~ In 39 n -> closes 39 n.
Proof. intros C N prev x _. now apply control_skip_single. Qed.
Lemma mismatched g g1 post : gap false g -> gap true g1 -> exists text root, json_parse (g ++ 123 :: g1 ++ 93 :: post) = Some (JsonEndPairMismatched, text, root).
Proof.
  intros G G1. rewrite object_start by easy. rewrite Nat.add_comm. cbn [Nat.add object_loop].
  replace (g ++ 123 :: g1 ++ 93 :: post) with ((g ++ [123]) ++ g1 ++ 93 :: post) by (norm; reflexivity). replace (S (List.length g)) with (List.length (g ++ [123])) by lens.
  rewrite trim_ok by (easy || (apply solid_of; cbn; lia)). cbn [obind]. rewrite app_assoc, <- app_length, rd_at. cbn [obind]. change (93 =? 125) with false. rewrite strchr_yes by (cbn; lia). cbn match. cbn [obind]. do 2 eexists. reflexivity.
Qed.
(** a name with something else than an assignment after it *)
Lemma unassigned q n g1 z pre rest : q = 34 \/ q = 39 -> cstring n -> closes q n -> gap true g1 -> solid z -> z <> 0 -> ~ In z [58; 61; 124] ->
  exists text, parse_name (pre ++ q :: n ++ q :: g1 ++ z :: rest) (List.length pre) = Some (text, inr JsonInvalidAssignment).
Proof.
  intros Hq C Nq G Sz Z0 Na. unfold parse_name. rewrite rd_at. cbn [obind].
  assert (T : (q =? 34) || (q =? 39) || char_is_alpha q || (q =? 95) || (q =? 36) = true) by (destruct Hq as [-> | ->]; reflexivity). rewrite T.
  assert (T' : (q =? 34) || (q =? 39) = true) by (destruct Hq as [-> | ->]; reflexivity). rewrite T'.
  replace (pre ++ q :: n ++ q :: g1 ++ z :: rest) with ((pre ++ [q]) ++ n ++ q :: g1 ++ z :: rest) by (rewrite <- !app_assoc; reflexivity).
  replace (S (List.length pre)) with (List.length (pre ++ [q])) by (rewrite app_length; cbn; lia).
  rewrite skipn_len, Nq by easy. cbn [obind].
  replace (List.length (pre ++ [q]) + List.length n)%nat with (List.length ((pre ++ [q]) ++ n)) by (rewrite app_length; lia).
  rewrite app_assoc, wr_at. cbn [obind].
  replace (((pre ++ [q]) ++ n) ++ 0 :: g1 ++ z :: rest) with (((pre ++ [q]) ++ n ++ [0]) ++ g1 ++ z :: rest) by (rewrite <- !app_assoc; reflexivity).
  replace (S (List.length ((pre ++ [q]) ++ n))) with (List.length ((pre ++ [q]) ++ n ++ [0])) by (rewrite !app_length; cbn [List.length]; lia).
  rewrite trim_ok by easy. cbn [obind]. rewrite app_assoc, <- app_length, rd_at. cbn [obind].
  unfold is_assign. change (asc ":=|") with [58; 61; 124]. rewrite strchr_no, (eqb_no z 0) by easy. cbn [negb andb]. eexists. reflexivity.
Qed.
(** an unknown word in an array *)
Lemma unknown_word g s g1 c post : gap false g -> begun s -> gap true g1 -> letter c -> In 0 post -> (forall w p r, word w p r -> firstn (List.length w) (c :: post) <> w) ->
  exists text root, json_parse (g ++ 91 :: s ++ g1 ++ c :: post) = Some (JsonUnknownKeyword, text, root).
Proof.
  intros G B G1 Lc I N. destruct (array_begun g s (g1 ++ c :: post) G B) as (pre & nodes & f & Lf & ->). rewrite app_length in Lf. cbn [List.length] in Lf. destruct f as [|[|f]]; [lia..|]. cbn [array_loop].
  assert (Hc : solid c /\ c <> 93 /\ c <> 0) by (unfold letter in Lc; split; [apply solid_of; cbn; lia|lia]). destruct Hc as (Sc & C9 & C0).
  assert (X : exists x0 y0, g1 ++ c :: post = x0 :: y0 /\ x0 <> 0).
  { destruct G1 as [|w g1 Ww _ _|s0 g1 _ _ _]; cbn [app]; [eauto| |]; do 2 eexists; (split; [reflexivity|]); [unfold white in Ww; cbn [In] in Ww; lia|lia]. }
  destruct X as (x0 & y0 & E0 & X0). rewrite E0, rd_at. cbn [obind]. rewrite (eqb_no x0 0) by easy. rewrite <- E0. rewrite trim_ok by easy. cbn [obind]. rewrite app_assoc, <- app_length, rd_at. cbn [obind]. rewrite (eqb_no c 93) by easy.
  cbn [parse_value]. rewrite rd_at. cbn [obind]. rewrite strchr_no by (unfold letter in Lc; cbn; lia). apply letter_alpha in Lc. rewrite Lc. cbn [obind]. rewrite skipn_len.
  rewrite words_refused; [|now right|easy]. cbn [obind]. do 2 eexists. reflexivity.
Qed.
