(** Proofs about JSON: writing. *)
From Coq Require Import String.
From Verif Require Import Base CStr CStrSpec CStrProofs CStrProofs2 Num NumSpec Print PrintSpec PrintProofs2 Node Json NodeProofs UriProofs JsonSpec JsonProofs JsonProofs2.

Definition spaces (x : Z) : list Z := repeat 32 (Z.to_nat x).
Lemma spaces_gap nl x : gap nl (spaces x).
Proof. unfold spaces. induction (Z.to_nat x) as [|n IH]; cbn [repeat]; [constructor|]. apply gap_white; [unfold white; cbn; lia|lia|easy]. Qed.
Lemma ind_ok x : x < max_text -> ind x = Some (spaces x).
Proof.
  intros H. unfold ind. destruct (Z.ltb_spec 0 x) as [P|N]; [|unfold spaces; replace (Z.to_nat x) with O by lia; reflexivity].
  pose proof (fprintf_ok [Dir false false (Star x) Absent (Repeat 32)] [spaces x]) as F. cbn [concat] in F. rewrite app_nil_r in F. unfold max_text in H. apply F.
  - constructor; [|constructor]. split; [split; [cbn; lia|lia]|]. split; [exact I|]. exists [32]. split; [cbn; split; [lia|reflexivity]|]. cbn [PrintSpec.value]. unfold spaces. f_equal. lia.
  - unfold spaces, PRINTF_MAXLEN. rewrite repeat_length. lia.
Qed.
Lemma cs_one c : 0 < c < 256 -> cstring [c].
Proof. intros. constructor; [easy|constructor]. Qed.
Lemma lit_one c : 0 < c < 256 -> c <> 37 -> fprintf [c] [] = Some [c].
Proof. intros H N. apply fprintf_lit; [now apply cs_one|intros [E|[]]; easy|unfold small, PRINTF_MAXLEN; cbn; lia]. Qed.
Lemma lit_two c d : 0 < c < 256 -> c <> 37 -> 0 < d < 256 -> d <> 37 -> fprintf [c; d] [] = Some [c; d].
Proof. intros H N H' N'. apply fprintf_lit; [constructor; [easy|now apply cs_one]|intros [E|[E|[]]]; easy|unfold small, PRINTF_MAXLEN; cbn; lia]. Qed.
(** a character and a short string *)
Lemma lit_s c s : 0 < c < 256 -> c <> 37 -> cstring s -> (List.length s <= 1)%nat -> fprintf (c :: asc "%s") [AS s] = Some (c :: s).
Proof.
  intros H N C L. pose proof (fprintf_ok [Lit [c]; Dir false false Absent Absent (Str s [])] [[c]; s]) as F. cbn [concat] in F. rewrite app_nil_r in F. apply F.
  - constructor; [apply rd_lit; [now apply cs_one|intros [E|[]]; easy]|]. constructor; [now apply rd_str|constructor].
  - unfold PRINTF_MAXLEN. cbn [app List.length]. lia.
Qed.
Lemma quote_s q s : 0 < q < 256 -> q <> 37 -> cstring s -> Z.of_nat (List.length s) + 2 < max_text -> fprintf (q :: asc "%s" ++ [q]) [AS s] = Some (q :: s ++ [q]).
Proof.
  intros H N C L. pose proof (fprintf_ok [Lit [q]; Dir false false Absent Absent (Str s []); Lit [q]] [[q]; s; [q]]) as F. cbn [concat] in F. rewrite app_nil_r in F. apply F.
  - constructor; [apply rd_lit; [now apply cs_one|intros [E|[]]; easy]|]. constructor; [now apply rd_str|]. constructor; [apply rd_lit; [now apply cs_one|intros [E|[]]; easy]|constructor].
  - unfold PRINTF_MAXLEN, max_text in *. cbn [app List.length]. rewrite app_length. cbn [List.length]. lia.
Qed.
Lemma word_write n w p st r : word w p r -> print_number (Tree (S := list Z) n p st (VReal r zero_analysis)) = Some w.
Proof.
  unfold word. cbn [In]. intros H.
  assert (L : forall s, cstring s -> ~ In 37 s -> (List.length s <= 20)%nat -> fprintf s [] = Some s) by (intros; apply fprintf_lit; [easy|easy|unfold small, PRINTF_MAXLEN; lia]).
  assert (Cs : forall s, forallb (fun c => (0 <? c) && (c <? 256) && negb (c =? 37)) s = true -> (List.length s <= 20)%nat -> fprintf s [] = Some s).
  { intros s Fs Ls. apply L; [| |easy]; rewrite forallb_forall in Fs.
    - apply Forall_forall. intros c I. apply Fs in I. rewrite !andb_true_iff, !Z.ltb_lt in I. lia.
    - intros I. apply Fs in I. discriminate I. }
  repeat (destruct H as [H|H]; [injection H as <- <- <-; unfold print_number; cbn [t_value t_props neg_zero zero_analysis]; cbn [obind]|]);
  [..|destruct H].
  - change (PROPS_TRUE =? PROPS_NAN) with false. change (PROPS_TRUE =? PROPS_NAN_NEG) with false. change (PROPS_TRUE =? PROPS_INFINITY) with false. change (PROPS_TRUE =? PROPS_INFINITY_NEG) with false. change (PROPS_TRUE =? PROPS_TRUE) with true. cbn match. rewrite Cs by (reflexivity || (cbn; lia)). reflexivity.
  - change (PROPS_FALSE =? PROPS_NAN) with false. change (PROPS_FALSE =? PROPS_NAN_NEG) with false. change (PROPS_FALSE =? PROPS_INFINITY) with false. change (PROPS_FALSE =? PROPS_INFINITY_NEG) with false. change (PROPS_FALSE =? PROPS_TRUE) with false. change (PROPS_FALSE =? PROPS_FALSE) with true. cbn match. rewrite Cs by (reflexivity || (cbn; lia)). reflexivity.
  - change (PROPS_NULL =? PROPS_NAN) with false. change (PROPS_NULL =? PROPS_NAN_NEG) with false. change (PROPS_NULL =? PROPS_INFINITY) with false. change (PROPS_NULL =? PROPS_INFINITY_NEG) with false. change (PROPS_NULL =? PROPS_TRUE) with false. change (PROPS_NULL =? PROPS_FALSE) with false. change (PROPS_NULL =? PROPS_NULL) with true. cbn match. rewrite Cs by (reflexivity || (cbn; lia)). reflexivity.
  - change (PROPS_INFINITY =? PROPS_NAN) with false. change (PROPS_INFINITY =? PROPS_NAN_NEG) with false. change (PROPS_INFINITY =? PROPS_INFINITY) with true. cbn match. rewrite Cs by (reflexivity || (cbn; lia)). reflexivity.
  - change (PROPS_INFINITY_NEG =? PROPS_NAN) with false. change (PROPS_INFINITY_NEG =? PROPS_NAN_NEG) with false. change (PROPS_INFINITY_NEG =? PROPS_INFINITY) with false. change (PROPS_INFINITY_NEG =? PROPS_INFINITY_NEG) with true. cbn match. rewrite Cs by (reflexivity || (cbn; lia)). reflexivity.
  - change (PROPS_NAN =? PROPS_NAN) with true. cbn match. rewrite Cs by (reflexivity || (cbn; lia)). reflexivity.
  - change (PROPS_NAN_NEG =? PROPS_NAN) with false. change (PROPS_NAN_NEG =? PROPS_NAN_NEG) with true. cbn match. rewrite Cs by (reflexivity || (cbn; lia)). reflexivity.
Qed.

(** ** trees *)
Lemma tree_ind2 (P : tree (list Z) -> Prop) : (forall n p st v, (forall arr l, v = VBranch arr l -> Forall P l) -> P (Tree n p st v)) -> forall t, P t.
Proof.
  intros H. fix F 1. intros [n p st v]. apply H. destruct v as [|m s|i a|r a|arr0 l0]; intros arr l E; try discriminate E. injection E as <- <-.
  induction l0 as [|x l IH]; constructor; [apply F|exact IH].
Qed.
(** the middle part of zpl__json_write_value, on a line with indent [i] *)
Definition body (i : Z) (o : tree (list Z)) : option (list Z) :=
  let (name, props, st, v) := o in
  match v with
  | VNone => Some []
  | VStr multi s =>
    let q := if multi then [96] else [34] in
    a <- fprintf q [] ;; b <- print_string s q [92] ;; c <- fprintf q [] ;; Some (a ++ b ++ c)
  | VInt _ _ | VReal _ _ => print_number o
  | VBranch true nodes =>
    a <- fprintf [91] [] ;;
    b <- write_nodes (fun x last =>
           let k := if is_branch (t_value x) then 0 else -4 in
           a <- write_value true (if i =? COMPACT then i else k) true x true ;;
           b <- (if last : bool then Some [] else fprintf [44; 32] []) ;; Some (a ++ b)) nodes ;;
    c <- fprintf [93] [] ;; Some (a ++ b ++ c)
  | VBranch false nodes => write_object (fun i x last => write_value false i false x last) st false nodes i
  end.
Lemma write_inline in_array i o last : write_value in_array i true o last = body (deeper i) o.
Proof. destruct o as [n p st v]. cbn [write_value]. fold (deeper i). cbn [obind]. unfold body. change (if i =? COMPACT then i else i + 4) with (deeper i).
  match goal with |- (b <- ?X ;; _) = _ => destruct X as [t|] end; cbn [obind app]; [now rewrite app_nil_r|reflexivity]. Qed.
Lemma write_line in_array i n p st v last : write_value in_array i false (Tree n p st v) last =
  (g <- ind (deeper i) ;; a <- (if in_array then Some [] else write_name n st (deeper i)) ;; b <- body (deeper i) (Tree n p st v) ;; c <- write_delim st (deeper i) last ;;
   Some (g ++ a ++ b ++ c)).
Proof.
  cbn [write_value]. unfold body. change (if i =? COMPACT then i else i + 4) with (deeper i).
  destruct (ind (deeper i)) as [g|]; [|reflexivity]. cbn [obind]. destruct (if in_array then Some [] else write_name n st (deeper i)) as [a|]; [|reflexivity]. cbn [obind].
  match goal with |- (b <- ?X ;; _) = _ => destruct X as [t|] end; [|reflexivity]. cbn [obind]. destruct (write_delim st (deeper i) last); [|reflexivity]. cbn [obind]. now rewrite <- app_assoc.
Qed.
Lemma write_nodes_cons w x r : write_nodes w (x :: r) = (a <- w x (match r with [] => true | _ => false end) ;; b <- write_nodes w r ;; Some (a ++ b)).
Proof. reflexivity. Qed.

(** ** gaps around texts *)
Lemma gap_app nl g g' : gap nl g -> gap nl g' -> gap nl (g ++ g').
Proof. induction 1 as [|w g W N G IH|s g C N G IH]; intros G'; cbn [app]; [easy|apply gap_white; auto|]. rewrite <- app_assoc. cbn [app]. apply gap_comment; auto. Qed.
Lemma gap_more g : gap false g -> gap true g.
Proof. induction 1; [constructor|apply gap_white; auto|apply gap_comment; auto]. Qed.
Lemma elements_gap g l t : gap true g -> elements l t -> elements l (g ++ t).
Proof.
  intros G E. inversion E; subst; rewrite ?app_assoc.
  - apply el_nil. now apply gap_app.
  - rewrite <- app_assoc. apply el_last; auto. now apply gap_app.
  - rewrite <- !app_assoc. rewrite (app_assoc g g0). apply el_cons; auto. now apply gap_app.
Qed.
Lemma members_gap g l t : gap true g -> members l t -> members l (g ++ t).
Proof.
  intros G M. inversion M; subst.
  - apply mb_nil. now apply gap_app.
  - rewrite (app_assoc g g0). apply mb_last; auto. now apply gap_app.
  - rewrite (app_assoc g g0). apply mb_cons; auto. now apply gap_app.
Qed.
Lemma flat_last g ns n g1 a g2 p v t g3 :
    gap true g -> name_ok ns n -> gap true g1 -> gap true g2 -> value_text p v t -> gap false g3 ->
    members [Tree (Some n) p (Style false ns a Comma 0 (width4 g1)) v] (g ++ name_text ns n ++ g1 ++ assign_char a :: g2 ++ t ++ g3).
Proof. intros. pose proof (mb_last g ns n g1 a g2 p v t g3) as M. repeat (rewrite <- !app_assoc in M; cbn [app] in M). auto. Qed.
Lemma flat_cons g ns n g1 a g2 p v t g3 d l r :
    gap true g -> name_ok ns n -> gap true g1 -> gap true g2 -> value_text p v t -> gap false g3 -> members l r ->
    members (Tree (Some n) p (Style false ns a d (delim_width d g3) (width4 g1)) v :: l)
            (g ++ name_text ns n ++ g1 ++ assign_char a :: g2 ++ t ++ g3 ++ delim_char d :: r).
Proof. intros. pose proof (mb_cons g ns n g1 a g2 p v t g3 d l r) as M. repeat (rewrite <- !app_assoc in M; cbn [app] in M). auto. Qed.
Lemma members_end g l t : gap false g -> members l t -> members l (t ++ g).
Proof.
  intros G M. revert G. induction M using members_mut with (P := fun _ _ _ => True) (P0 := fun _ _ => True); auto; intros Ge.
  - apply mb_nil. apply gap_app; [easy|now apply gap_more].
  - norm. apply flat_last; auto. now apply gap_app.
  - norm. apply flat_cons; auto.
Qed.
Lemma elements_end g l t : gap true g -> elements l t -> elements l (t ++ g).
Proof.
  intros G M. revert G. induction M using elements_mut with (P := fun _ _ _ => True) (P1 := fun _ _ => True); auto; intros Ge.
  - apply el_nil. now apply gap_app.
  - norm. apply el_last; auto. now apply gap_app.
  - norm. apply el_cons; auto.
Qed.

(** ** names and delimiters *)
Lemma arg_name n : name_arg (Some n) = AS n.
Proof. reflexivity. Qed.
Lemma name_cstring ns n : name_ok ns n -> cstring n.
Proof.
  destruct ns; cbn [name_ok]; [now intros ((C & _) & _)|easy|]. intros (c & r & -> & C & R). constructor.
  - unfold name_start, letter in C. lia.
  - eapply Forall_impl; [|exact R]. unfold name_char, letter. intros; cbn beta in *; lia.
Qed.
Lemma space_of_ok i : cstring (space_of i) /\ (List.length (space_of i) <= 1)%nat /\ gap true (space_of i).
Proof.
  unfold space_of. destruct (i =? COMPACT); cbn [List.length]; (split; [|split; [lia|]]).
  - constructor.
  - constructor.
  - apply cs_one; lia.
  - apply (spaces_gap true 1).
Qed.
Lemma newline_gap : gap true [10].
Proof. apply gap_white; [unfold white; cbn; lia|auto|constructor]. Qed.
Lemma eol_cases st i : eol_of st i = [] \/ eol_of st i = [10].
Proof. unfold eol_of. destruct (delim_style st); [destruct (i =? COMPACT)|..]; auto. Qed.
Lemma eol_of_ok st i : cstring (eol_of st i) /\ (List.length (eol_of st i) <= 1)%nat /\ gap true (eol_of st i).
Proof.
  destruct (eol_cases st i) as [-> | ->]; cbn [List.length]; (split; [|split; [lia|]]).
  - constructor.
  - constructor.
  - apply cs_one; lia.
  - apply newline_gap.
Qed.
Definition name_gap (st : style) (i : Z) : list Z :=
  match assign_style st with Colon => [] | _ => if i =? COMPACT then [] else spaces (Z.max (assign_line_width st) 1) end.
Lemma write_name_ok n st i : name_ok (name_style st) n -> Z.of_nat (List.length n) + 2 < max_text -> 0 <= assign_line_width st < 16 ->
  write_name (Some n) st i = Some (name_text (name_style st) n ++ name_gap st i ++ assign_char (assign_style st) :: space_of i).
Proof.
  intros N L W. pose proof (name_cstring _ _ N) as C. destruct (space_of_ok i) as (SC & SL & _). unfold write_name.
  assert (A : match name_style st with DoubleQuote => fprintf (34 :: asc "%s" ++ [34]) [name_arg (Some n)] | SingleQuote => fprintf (asc "'%s'") [name_arg (Some n)] | NoQuotes => fprintf (asc "%s") [name_arg (Some n)] end
              = Some (name_text (name_style st) n)).
  { rewrite arg_name. destruct (name_style st); cbn [name_text].
    - apply quote_s; [lia|lia|easy|easy].
    - apply (quote_s 39); [lia|lia|easy|easy].
    - apply fprintf_s; [easy|unfold small, PRINTF_MAXLEN, max_text in *; lia]. }
  rewrite A. cbn [obind]. unfold name_gap.
  destruct (assign_style st); cbn [assign_char].
  - change (asc ":%s") with (58 :: asc "%s"). rewrite lit_s by (easy || lia). reflexivity.
  - change (asc "=%s") with (61 :: asc "%s"). rewrite lit_s by (easy || lia). destruct (i =? COMPACT); [|rewrite ind_ok by (unfold max_text; lia)]; reflexivity.
  - change (asc "|%s") with (124 :: asc "%s"). rewrite lit_s by (easy || lia). destruct (i =? COMPACT); [|rewrite ind_ok by (unfold max_text; lia)]; reflexivity.
Qed.
Lemma name_gap_ok st i : gap true (name_gap st i).
Proof. unfold name_gap. destruct (assign_style st); try constructor; (destruct (i =? COMPACT); [constructor|apply spaces_gap]). Qed.
Lemma name_gap_width st i : 0 <= assign_line_width st < 16 ->
  width4 (name_gap st i) = match assign_style st with Colon => 0 | _ => if i =? COMPACT then 0 else Z.max (assign_line_width st) 1 end.
Proof.
  intros W. unfold name_gap, width4, spaces. destruct (assign_style st); [reflexivity|..]; (destruct (i =? COMPACT); [reflexivity|]); rewrite repeat_length, Z.mod_small by lia; lia.
Qed.
Definition delim_text (st : style) (i : Z) (last : bool) : list Z :=
  match delim_style st with
  | Newline => [10]
  | DelimLine => spaces (delim_line_width st) ++ [124; 10]
  | Comma => if last then eol_of st i else 44 :: eol_of st i
  end.
Lemma write_delim_ok st i last : 0 <= delim_line_width st < 16 -> write_delim st i last = Some (delim_text st i last).
Proof.
  intros W. unfold write_delim, delim_text. destruct (eol_of_ok st i) as (C & L & _). destruct (delim_style st).
  - destruct last; [apply fprintf_s; [easy|unfold small, PRINTF_MAXLEN; lia]|]. change (asc ",%s") with (44 :: asc "%s"). apply lit_s; (easy || lia).
  - rewrite ind_ok by (unfold max_text; lia). cbn [obind]. rewrite lit_two by lia. reflexivity.
  - apply lit_one; lia.
Qed.

(** ** values *)
Lemma write_string_ok m s : good_string (if m : bool then 96 else 34) s ->
  (a <- fprintf (if m then [96] else [34]) [] ;; b <- print_string (Some s) (if m then [96] else [34]) [92] ;; c <- fprintf (if m then [96] else [34]) [] ;; Some (a ++ b ++ c))
  = Some ((if m then [96] else [34]) ++ s ++ (if m then [96] else [34])).
Proof.
  intros (C & Q & B & L). 
  assert (P : print_string (Some s) (if m then [96] else [34]) [92] = Some s).
  { assert (K : forall q, 0 < q < 256 -> ~ In q s -> print_string (Some s) [q] [92] = Some s).
    { intros q R N. rewrite print_string_ok; [|now apply cs_one|apply cs_one; lia|unfold small, PRINTF_MAXLEN; cbn; lia|easy|unfold small, PRINTF_MAXLEN, max_text in *; lia].
      f_equal. apply escape_none. intros c I [E|[]]. subst. easy. }
    destruct m; apply K; (easy || lia). }
  rewrite P. destruct m; rewrite lit_one by lia; reflexivity.
Qed.
Lemma good_literal q s : good_string q s -> literal q s.
Proof.
  intros (C & Q & B & L). split; [easy|]. split; [|easy]. intros k E. exfalso. apply Q. now apply nth_error_In with k.
Qed.
Lemma settle_name c t : t_name (settle c t) = t_name t.
Proof. now destruct t. Qed.
Definition settle_members (c : bool) : list (tree (list Z)) -> list (tree (list Z)) :=
  fix go l := match l with
              | [] => []
              | x :: r => with_style (settled c (match r with [] => true | _ => false end) (t_style x)) (settle c x) :: go r
              end.
Lemma settle_object c n p st l : settle c (Tree n p st (VBranch false l)) = Tree n p st (VBranch false (settle_members c l)).
Proof. reflexivity. Qed.
Lemma settle_array c n p st l : settle c (Tree n p st (VBranch true l)) = Tree n p st (VBranch true (map (settle c) l)).
Proof. reflexivity. Qed.
(** the value of [t] written on a line with indent [i] *)
Definition writes (i : Z) (t : tree (list Z)) : Prop :=
  exists g tv g', body i t = Some (g ++ tv ++ g') /\ gap false g /\ value_text (t_props t) (t_value (settle (i =? COMPACT) t)) tv /\
                  (g' = [] \/ is_object (t_value t) /\ ~ 0 < i /\ g' = eol_of (t_style t) i).
(** elements *)
Lemma write_elements sep w i l : gap true sep ->
  (forall x last, In x l -> exists g tv g', w x last = Some (g ++ tv ++ g' ++ if last : bool then [] else 44 :: sep) /\
     gap true g /\ gap true g' /\ value_text (t_props x) (t_value (settle i x)) tv /\ t_name x = None /\ t_style x = zero_style) ->
  exists ts, write_nodes w l = Some ts /\ elements (map (settle i) l) ts.
Proof.
  intros Sg W. assert (E : forall x, t_name x = None -> t_style x = zero_style -> settle i x = Tree None (t_props x) zero_style (t_value (settle i x))).
  { intros [n p st v] N St. cbn in N, St. subst. reflexivity. }
  induction l as [|x l IH]; [exists []; split; [reflexivity|apply el_nil; constructor]|].
  rewrite write_nodes_cons. destruct (W x (match l with [] => true | _ => false end) (or_introl eq_refl)) as (g & tv & g' & -> & G & G' & T & N & St). cbn [obind map].
  rewrite (E x N St). destruct IH as (ts & Ets & M); [intros; apply W; now right|]. rewrite Ets. cbn [obind]. destruct l as [|y l].
  - exists (g ++ tv ++ g'). split; [|now apply el_last]. injection Ets as <-. now rewrite !app_nil_r.
  - exists (g ++ tv ++ g' ++ 44 :: sep ++ ts). split; [norm; reflexivity|]. apply el_cons; auto. now apply elements_gap.
Qed.
(** members *)
Lemma delim_gap_width x : 0 <= x < 16 -> width4 (spaces x) = x.
Proof. intros. unfold width4, spaces. rewrite repeat_length, Z.mod_small by lia. lia. Qed.
Lemma write_member i n p st v v' last l ts g gt tv g' :
  good_member i last (Tree (Some n) p st v) -> gap true g -> gap true gt -> gap false gt -> value_text p v' tv -> (last = true -> l = [] /\ ts = []) -> members l ts ->
  (g' = [] \/ is_object v /\ ~ 0 < i /\ g' = eol_of st i) ->
  members (Tree (Some n) p (settled (i =? COMPACT) last st) v' :: l)
    (g ++ name_text (name_style st) n ++ name_gap st i ++ assign_char (assign_style st) :: (space_of i ++ gt) ++ tv ++ g' ++ delim_text st i last ++ ts).
Proof.
  intros (N & Cf & Wa & Wd & O) G Gt _ T La M E'. destruct N as (n' & N & No & Nl). cbn [t_name t_style t_value] in *. injection N as <-.
  pose proof (name_gap_ok st i) as Ga. pose proof (name_gap_width st i Wa) as Gw.
  assert (Gs : gap true (space_of i ++ gt)) by (apply gap_app; [apply space_of_ok|easy]). remember (space_of i ++ gt) as gs eqn:Hgs. clear Hgs.
  unfold delim_text. pose proof (eol_of_ok st i) as (_ & _ & Ge). unfold settled. rewrite Cf, <- Gw.
  destruct (delim_style st) eqn:D.
  - (* comma *)
    destruct last.
    + destruct La as (-> & ->); [easy|]. destruct (i =? COMPACT) eqn:Ic; cbn [andb negb].
      * assert (Z1 : eol_of st i = []) by (unfold eol_of; now rewrite D, Ic). rewrite Z1 in *. assert (g' = []) as -> by (destruct E' as [? | (? & ? & ?)]; easy). cbn [app].
        apply flat_last; auto. constructor.
      * assert (Z1 : eol_of st i = [10]) by (unfold eol_of; now rewrite D, Ic). rewrite Z1 in *.
        destruct E' as [-> | (_ & _ & ->)]; cbn [app].
        -- apply (flat_cons g _ n _ _ _ p v' tv [] Newline [] []); auto; constructor.
        -- apply (flat_cons g _ n _ _ _ p v' tv [] Newline [] [10]); auto; constructor; apply newline_gap.
    + assert (g' = []) as ->.
      { destruct E' as [? | (Ob & Li & ->)]; [easy|]. specialize (O Ob). unfold eol_of. rewrite D. change (i =? compact_indent) with (i =? COMPACT) in O.
        destruct (i =? COMPACT); [easy|]. exfalso. destruct O as [?|[?|(_ & ?)]]; easy. }
      cbn [app andb]. apply (flat_cons g _ n _ _ _ p v' tv [] Comma l (eol_of st i ++ ts)); auto; [constructor|]. now apply members_gap.
  - assert (g' = []) as ->.
    { destruct E' as [? | (Ob & Li & ->)]; [easy|]. specialize (O Ob). exfalso. destruct (i =? compact_indent); [easy|]. destruct O as [?|[?|(? & ?)]]; easy. }
    cbn [app]. rewrite <- (delim_gap_width (delim_line_width st)) at 1 by easy. rewrite <- app_assoc. cbn [app].
    apply (flat_cons g _ n _ _ _ p v' tv (spaces (delim_line_width st)) DelimLine l (10 :: ts)); auto; [apply spaces_gap|]. apply (members_gap [10]); [apply newline_gap|easy].
  - assert (Z1 : eol_of st i = [10]) by (unfold eol_of; now rewrite D). rewrite Z1 in *.
    destruct E' as [-> | (_ & _ & ->)]; cbn [app].
    + apply (flat_cons g _ n _ _ _ p v' tv [] Newline l ts); auto; constructor.
    + apply (flat_cons g _ n _ _ _ p v' tv [] Newline l (10 :: ts)); auto; [constructor|]. apply (members_gap [10]); [apply newline_gap|easy].
Qed.
Lemma write_members i0 i l : deeper i0 = i -> good_members i l -> Forall (fun x => cfg_mode (t_style x) = false -> good i x -> writes i x) l ->
  exists ts, write_nodes (fun x last => write_value false i0 false x last) l = Some ts /\ members (settle_members (i =? COMPACT) l) ts.
Proof.
  intros D. induction l as [|x l IH]; intros G F; [exists []; split; [reflexivity|apply mb_nil; constructor]|].
  rewrite write_nodes_cons. destruct G as (Gm & Gx & Gl). inversion F as [|? ? Fx Fl]; subst x0 l0. destruct (IH Gl Fl) as (ts & Ets & M). clear IH F.
  destruct x as [n p st v]. assert (Cf : cfg_mode st = false) by apply Gm. specialize (Fx Cf Gx). destruct Fx as (g & tv & g' & B & Gg & T & E').
  pose proof Gm as ((n' & N & No & Nl) & _ & Wa & Wd & _). cbn [t_name t_style] in N, No, Wa, Wd. subst n.
  rewrite write_line, D, Ets. rewrite ind_ok by (destruct Gx as ((_ & K) & _); exact K). rewrite write_name_ok, B, write_delim_ok by easy. cbn [obind].
  eexists. split; [reflexivity|]. cbn [settle_members]. fold (settle_members (i =? COMPACT)). cbn [settle with_style t_style].
  pose proof (write_member i n' p st v (t_value (settle (i =? COMPACT) (Tree (Some n') p st v))) (match l with [] => true | _ => false end) (settle_members (i =? COMPACT) l) ts (spaces i) g tv g' Gm (spaces_gap true i) (gap_more _ Gg) Gg T) as W.
  norm. repeat (rewrite <- !app_assoc in W; cbn [app] in W). apply W; [|easy|easy].
  destruct l; [|easy]. injection Ets as <-. split; reflexivity.
Qed.
(** objects *)
Lemma write_open c st i : 0 < c < 256 -> fprintf (asc "%c%s") [AInt c; AS (eol_of st i)] = Some (c :: eol_of st i).
Proof. intros C. destruct (eol_of_ok st i) as (Ec & El & _). apply (fprintf_cs c (eol_of st i)); try easy; unfold small, PRINTF_MAXLEN; cbn; lia. Qed.
Lemma write_close c : 0 < c < 256 -> fprintf (asc "%c") [AInt c] = Some [c].
Proof. intros C. apply fprintf_c; easy. Qed.
Lemma write_object_ok st arr i l w c0 c1 ts : c0 = (if arr : bool then 91 else 123) -> c1 = (if arr then 93 else 125) -> cfg_mode st = false -> indent_ok i -> write_nodes (w i) l = Some ts ->
  write_object w st arr l i = Some (spaces (i - 4) ++ (c0 :: eol_of st i ++ ts ++ spaces i ++ [c1]) ++ (if 0 <? i then [] else eol_of st i)).
Proof.
  intros -> -> Cf (_ & I) W. unfold write_object. rewrite Cf, W, !ind_ok by lia. cbn [obind].
  assert (R : forall b : bool, 0 < (if b then 91 else 123) < 256 /\ 0 < (if b then 93 else 125) < 256) by (intros []; lia).
  rewrite write_open by apply R. cbn [obind]. destruct (0 <? i); [rewrite write_close by apply R|rewrite write_open by apply R]; cbn [obind]; f_equal; cbn [app]; norm; rewrite ?app_nil_r; reflexivity.
Qed.
Lemma element_indent_deeper i x : deeper (if i =? COMPACT then i else if is_branch (t_value x) then 0 else -4) = element_indent i x.
Proof. unfold deeper, element_indent. change compact_indent with COMPACT. destruct (i =? COMPACT) eqn:E; [now rewrite E|]. destruct (t_value x); reflexivity. Qed.
Lemma element_compact i x : (element_indent i x =? COMPACT) = (i =? COMPACT).
Proof. unfold element_indent. change compact_indent with COMPACT. destruct (i =? COMPACT) eqn:E; [easy|]. destruct (t_value x); reflexivity. Qed.
Lemma deeper_compact i : indent_ok i -> (deeper i =? COMPACT) = (i =? COMPACT).
Proof. unfold deeper, indent_ok, compact_indent, COMPACT. intros H. destruct (Z.eqb_spec i (-1000)) as [->|N]; [easy|]. apply Z.eqb_neq. lia. Qed.
Lemma array_nodes i l : (fix go l := match l with [] => True | x :: r => t_name x = None /\ t_style x = zero_style /\ good (element_indent i x) x /\ go r end) l ->
  forall x, In x l -> t_name x = None /\ t_style x = zero_style /\ good (element_indent i x) x.
Proof. induction l as [|y l IH]; intros H x I; [easy|]. destruct H as (A & B & C & D). destruct I as [<-|I]; auto. Qed.
Theorem body_ok t : forall i, cfg_mode (t_style t) = false -> good i t -> writes i t.
Proof.
  induction t as [n p st v IH] using tree_ind2. intros i Cf G. cbn [t_style] in Cf. destruct G as (Ii & G).
  destruct v as [|m s|k a|r a|arr l].
  - destruct G.
  - destruct G as (-> & G). destruct s as [s|]; [|destruct G].
    exists [], ((if m then [96] else [34]) ++ s ++ (if m then [96] else [34])), []. split; [|split; [constructor|split; [|now left]]].
    + cbn [app]. rewrite app_nil_r. unfold body. now apply write_string_ok.
    + cbn [settle t_props t_value]. destruct m; cbn [app]; [apply vt_multi|apply vt_string; [auto|]]; now apply good_literal.
  - destruct G as (-> & -> & G). destruct (numeral_exists k G) as (t & T). exists [], t, []. split; [|split; [constructor|split; [|now left]]].
    + cbn [app]. rewrite app_nil_r. unfold body, print_number. cbn [t_value t_props neg_zero zero_analysis obind]. change (0 =? PROPS_IS_HEX) with false. cbn match. rewrite (fprintf_lld k t) by easy. reflexivity.
    + cbn [settle t_props t_value]. now apply vt_int.
  - destruct G as (-> & w & W). exists [], w, []. split; [|split; [constructor|split; [|now left]]].
    + cbn [app]. rewrite app_nil_r. unfold body. now apply word_write.
    + cbn [settle t_props t_value]. now apply vt_word.
  - specialize (IH arr l eq_refl). destruct arr.
    + destruct G as (-> & G). pose proof (array_nodes i l G) as Gn. clear G.
      destruct (write_elements [32] (fun x last => a <- write_value true (if i =? COMPACT then i else if is_branch (t_value x) then 0 else -4) true x true ;; b <- (if last : bool then Some [] else fprintf [44; 32] []) ;; Some (a ++ b)) (i =? COMPACT) l) as (ts & Ets & M).
      * apply (spaces_gap true 1).
      * intros x last I. destruct (Gn x I) as (N & St & Gx). rewrite Forall_forall in IH. specialize (IH x I (element_indent i x)). rewrite write_inline, element_indent_deeper.
        destruct IH as (g & tv & g' & B & Gg & T & E'); [now rewrite St|easy|]. rewrite element_compact in T.
        exists g, tv, g'. rewrite B. cbn [obind]. split; [destruct last; cbn [obind]; [|rewrite lit_two by lia; cbn [obind]]; f_equal; norm; rewrite ?app_nil_r; reflexivity|].
        split; [now apply gap_more|]. split; [|auto]. destruct E' as [-> | (_ & _ & ->)]; [constructor|apply eol_of_ok].
      * exists [], (91 :: ts ++ [93]), []. split; [|split; [constructor|split; [|now left]]].
        -- unfold body. rewrite lit_one by lia. cbn [obind]. cbv zeta in Ets. cbv zeta. rewrite Ets. cbn [obind]. rewrite lit_one by lia. cbn [obind app]. now rewrite app_nil_r.
        -- rewrite settle_array. cbn [t_props t_value]. now apply vt_array.
    + destruct G as (-> & G). change (good_members (deeper i) l) in G.
      destruct (write_members i (deeper i) l eq_refl G) as (ts & Ets & M).
      { eapply Forall_impl; [|exact IH]. cbn beta. intros x H. apply H. }
      rewrite (deeper_compact i Ii) in M.
      exists (spaces (i - 4)), (123 :: eol_of st i ++ ts ++ spaces i ++ [125]), (if 0 <? i then [] else eol_of st i).
      split; [unfold body; now apply write_object_ok|]. split; [apply spaces_gap|]. split.
      * rewrite settle_object. cbn [t_props t_value]. replace (eol_of st i ++ ts ++ spaces i ++ [125]) with ((eol_of st i ++ ts ++ spaces i) ++ [125]) by (norm; reflexivity).
        apply vt_object. apply members_gap; [apply eol_of_ok|]. apply members_end; [apply spaces_gap|easy].
      * destruct (Z.ltb_spec 0 i); [now left|right]. split; [now exists l|]. split; [lia|easy].
Qed.
