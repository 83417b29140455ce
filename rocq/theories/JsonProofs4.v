(** Proofs about JSON: whole documents. *)
From Coq Require Import String.
From Verif Require Import Base CStr CStrSpec CStrProofs CStrProofs2 Num NumSpec Print PrintSpec PrintProofs2 Node Json NodeProofs UriProofs JsonSpec JsonProofs JsonProofs2 JsonProofs3.

Lemma good_elements_in i l : good_elements i l -> forall x, In x l -> t_name x = None /\ t_style x = zero_style /\ good i x.
Proof. induction l as [|y l IH]; intros H x I; [easy|]. destruct H as (A & B & C & D). destruct I as [<-|I]; auto. Qed.
Lemma settle_root c cfg arr l : settle c (doc_root cfg arr l) = doc_root cfg arr (if arr then map (settle c) l else settle_members c l).
Proof. now destruct arr. Qed.
Lemma all_bodies i l : Forall (fun x => cfg_mode (t_style x) = false -> good i x -> writes i x) l.
Proof. apply Forall_forall. intros x _. now apply body_ok. Qed.
(** what zpl_json_write writes, with the NUL after it, starts with a document *)
Theorem write_root i cfg arr l : good_root i cfg arr l ->
  exists t d post, json_write (doc_root cfg arr l) i = Some t /\ t ++ [0] = d ++ post /\ document (settle (i =? compact_indent) (doc_root cfg arr l)) d.
Proof.
  intros G. unfold json_write. cbn [doc_root t_value t_style]. rewrite settle_root. change compact_indent with COMPACT. destruct cfg, arr; [destruct G|..].
  - (* no brackets *)
    destruct G as (I & Ne & G).
    assert (D : deeper (i - 4) = i).
    { unfold deeper, compact_indent in *. destruct (Z.eqb_spec (i - 4) (-1000)); lia. }
    assert (Im : i < max_text) by (unfold compact_indent, max_text in *; lia).
    destruct (write_members (i - 4) i l D G (all_bodies i l)) as (ts & Ets & M).
    assert (Ne' : settle_members (i =? COMPACT) l <> []) by (destruct l; [easy|discriminate]).
    unfold write_object. cbn [cfg_mode]. rewrite Ets, ind_ok by lia. cbn [obind app].
    destruct (0 <? i - 4); [rewrite write_close by lia|]; cbn [obind].
    + exists (spaces (i - 4) ++ ts ++ spaces (i - 4) ++ [125]), (spaces (i - 4) ++ ts ++ spaces (i - 4) ++ [125]), [0]. split; [reflexivity|]. split; [reflexivity|].
      replace (spaces (i - 4) ++ ts ++ spaces (i - 4) ++ [125]) with ((spaces (i - 4) ++ ts ++ spaces (i - 4)) ++ [125]) by (norm; reflexivity).
      apply doc_bare; auto. apply members_gap; [apply spaces_gap|]. apply members_end; [apply spaces_gap|easy].
    + exists (spaces (i - 4) ++ ts ++ spaces (i - 4)), ((spaces (i - 4) ++ ts ++ spaces (i - 4)) ++ [0]), []. split; [now rewrite app_nil_r|]. split; [now rewrite app_nil_r|].
      apply doc_bare; auto. apply members_gap; [apply spaces_gap|]. apply members_end; [apply spaces_gap|easy].
  - (* an array *)
    destruct G as (I & G). set (st := Style false DoubleQuote Colon Comma 0 0).
    destruct (write_elements (eol_of zero_style (deeper i)) (fun x last => write_value true i false x last) (i =? COMPACT) l) as (ts & Ets & M).
    + apply eol_of_ok.
    + intros x last Ix. destruct (good_elements_in _ _ G x Ix) as (N & St & Gx). destruct x as [n p st' v]. cbn [t_name t_style] in N, St. subst n st'.
      destruct (body_ok (Tree None p zero_style v) (deeper i) eq_refl Gx) as (g & tv & g' & B & Gg & T & E'). rewrite deeper_compact in T by easy.
      rewrite write_line, B, ind_ok by (destruct Gx as ((_ & K) & _); exact K). cbn [obind app]. rewrite write_delim_ok by (cbn; lia). cbn [obind].
      exists (spaces (deeper i) ++ g), tv, (g' ++ if last then eol_of zero_style (deeper i) else []). cbn [t_props t_name t_style].
      split; [unfold delim_text; cbn [delim_style zero_style]; destruct last; f_equal; norm; rewrite ?app_nil_r; reflexivity|].
      split; [apply gap_app; [apply spaces_gap|now apply gap_more]|]. split; [|auto].
      apply gap_app; [destruct E' as [-> | (_ & _ & ->)]; [constructor|apply eol_of_ok]|]. destruct last; [apply eol_of_ok|constructor].
    + rewrite (write_object_ok st true i l _ 91 93 ts); try easy.
      exists (spaces (i - 4) ++ (91 :: eol_of st i ++ ts ++ spaces i ++ [93]) ++ (if 0 <? i then [] else eol_of st i)), (spaces (i - 4) ++ 91 :: (eol_of st i ++ ts ++ spaces i) ++ [93]), ((if 0 <? i then [] else eol_of st i) ++ [0]).
      split; [reflexivity|]. split; [cbn [app]; norm; reflexivity|]. apply doc_array; [apply spaces_gap|]. apply elements_gap; [apply eol_of_ok|]. apply elements_end; [apply spaces_gap|easy].
  - (* an object *)
    destruct G as (I & G). set (st := Style false DoubleQuote Colon Comma 0 0).
    destruct (write_members i (deeper i) l eq_refl G (all_bodies (deeper i) l)) as (ts & Ets & M). rewrite deeper_compact in M by easy.
    rewrite (write_object_ok st false i l _ 123 125 ts); try easy.
    exists (spaces (i - 4) ++ (123 :: eol_of st i ++ ts ++ spaces i ++ [125]) ++ (if 0 <? i then [] else eol_of st i)), (spaces (i - 4) ++ 123 :: (eol_of st i ++ ts ++ spaces i) ++ [125]), ((if 0 <? i then [] else eol_of st i) ++ [0]).
    split; [reflexivity|]. split; [cbn [app]; norm; reflexivity|]. apply doc_object; [apply spaces_gap|]. apply members_gap; [apply eol_of_ok|]. apply members_end; [apply spaces_gap|easy].
Qed.

(** ** writing again *)
Lemma settle_style c t : t_style (settle c t) = t_style t.
Proof. now destruct t. Qed.
Lemma settled_idem c last st : settled c last (settled c last st) = settled c last st.
Proof.
  unfold settled. cbn [cfg_mode name_style assign_style delim_style delim_line_width assign_line_width]. f_equal.
  - destruct (delim_style st); try easy. now destruct (last && negb c) eqn:E; rewrite ?E.
  - destruct (delim_style st); try easy. now destruct (last && negb c).
  - destruct (assign_style st); try easy; destruct c; try easy; lia.
Qed.
Lemma with_style_style st t : t_style (with_style st t) = st.
Proof. now destruct t. Qed.
Lemma settle_with_style c st t : settle c (with_style st t) = with_style st (settle c t).
Proof. now destruct t. Qed.
Lemma with_style_twice st st' t : with_style st (with_style st' t) = with_style st t.
Proof. now destruct t. Qed.
Theorem settle_idem c t : settle c (settle c t) = settle c t.
Proof.
  induction t as [n p st v IH] using tree_ind2. destruct v as [|m s|k a|r a|arr l]; try reflexivity. specialize (IH arr l eq_refl). destruct arr.
  - rewrite !settle_array. do 2 f_equal. rewrite map_map. apply map_ext_in. intros x I. rewrite Forall_forall in IH. auto.
  - rewrite !settle_object. do 2 f_equal. induction l as [|x l IHl]; [reflexivity|]. inversion IH as [|? ? Hx Hl]; subst. cbn [settle_members]. rewrite IHl by easy. f_equal.
    rewrite with_style_style, settle_with_style, Hx, with_style_twice. f_equal. destruct l; apply settled_idem.
Qed.
Lemma eol_settled i last st : eol_of (settled (i =? COMPACT) last st) i = eol_of st i.
Proof. unfold eol_of, settled. cbn [delim_style]. destruct (delim_style st); try easy. destruct last; [|easy]. destruct (i =? COMPACT) eqn:E; cbn [andb negb]; easy. Qed.
Lemma write_name_settled n i last st : write_name n (settled (i =? COMPACT) last st) i = write_name n st i.
Proof.
  unfold write_name, settled. cbn [name_style assign_style assign_line_width]. destruct (assign_style st); [reflexivity|..]; (destruct (i =? COMPACT); [reflexivity|]); now rewrite <- Z.max_assoc.
Qed.
Lemma write_delim_settled i last st : write_delim (settled (i =? COMPACT) last st) i last = write_delim st i last.
Proof.
  unfold write_delim. rewrite eol_settled. unfold settled. cbn [delim_style delim_line_width]. destruct (delim_style st) eqn:D; [|reflexivity..].
  destruct last; [|reflexivity]. destruct (i =? COMPACT) eqn:E; [reflexivity|]. cbn [andb negb]. unfold eol_of. rewrite D, E. reflexivity.
Qed.
Lemma write_nodes_ext w w' : forall l, (forall x last, In x l -> w x last = w' x last) -> write_nodes w l = write_nodes w' l.
Proof.
  induction l as [|x l IH]; intros H; [reflexivity|]. rewrite !write_nodes_cons. rewrite H by now left. destruct (w' x _); [|reflexivity]. cbn [obind]. rewrite IH; [easy|]. intros; apply H; now right.
Qed.
Lemma write_nodes_map w f : forall l, write_nodes w (map f l) = write_nodes (fun x last => w (f x) last) l.
Proof. induction l as [|x l IH]; [reflexivity|]. cbn [map]. rewrite !write_nodes_cons, IH. now destruct l. Qed.
Lemma write_nodes_settle w c : forall l, write_nodes w (settle_members c l) = write_nodes (fun x last => w (with_style (settled c last (t_style x)) (settle c x)) last) l.
Proof. induction l as [|x l IH]; [reflexivity|]. cbn [settle_members]. fold (settle_members c). rewrite !write_nodes_cons, IH. now destruct l. Qed.
Definition same_body (i : Z) (t : tree (list Z)) : Prop :=
  body i (settle (i =? COMPACT) t) = body i t /\ forall last, body i (with_style (settled (i =? COMPACT) last (t_style t)) (settle (i =? COMPACT) t)) = body i t.
Lemma is_branch_settle c t : is_branch (t_value (settle c t)) = is_branch (t_value t).
Proof. destruct t as [n p st v]. now destruct v. Qed.
Lemma same_line arr i i' x last : deeper i = i' -> same_body i' x ->
  write_value arr i false (with_style (settled (i' =? COMPACT) last (t_style x)) (settle (i' =? COMPACT) x)) last = write_value arr i false x last.
Proof.
  intros <- (_ & B). specialize (B last). destruct x as [n p st v]. cbn [settle with_style t_style] in *. rewrite !write_line.
  cbn [settle with_style t_style] in B. rewrite B. destruct (ind (deeper i)); [|reflexivity]. cbn [obind]. rewrite write_name_settled, write_delim_settled. reflexivity.
Qed.
Lemma same_members i i' l : deeper i = i' -> good_members i' l -> Forall (fun x => cfg_mode (t_style x) = false -> good i' x -> same_body i' x) l ->
  write_nodes (fun x last => write_value false i false x last) (settle_members (i' =? COMPACT) l) = write_nodes (fun x last => write_value false i false x last) l.
Proof.
  intros D G F. rewrite write_nodes_settle. apply write_nodes_ext. intros x last I. apply same_line; [easy|]. rewrite Forall_forall in F.
  assert (K : cfg_mode (t_style x) = false /\ good i' x).
  { clear F D. induction l as [|y l IH]; [easy|]. destruct G as (Gm & Gy & Gl). destruct I as [->|I]; [|auto]. split; [apply Gm|easy]. }
  now apply F.
Qed.
Theorem same_bodies t : forall i, cfg_mode (t_style t) = false -> good i t -> same_body i t.
Proof.
  induction t as [n p st v IH] using tree_ind2. intros i Cf G. cbn [t_style] in Cf. destruct G as (Ii & G).
  destruct v as [|m s|k a|r a|arr l]; try (split; reflexivity). specialize (IH arr l eq_refl). destruct arr.
  - destruct G as (_ & G). pose proof (array_nodes i l G) as Gn. clear G. unfold same_body. rewrite settle_array. cbn [t_style with_style body].
    assert (E : forall X Y : option (list Z), X = Y -> (X = Y) /\ (bool -> X = Y)) by auto. apply E. clear E.
    destruct (fprintf [91] []); [|reflexivity]. cbn [obind]. f_equal. rewrite write_nodes_map. apply write_nodes_ext. intros x last I. destruct (Gn x I) as (N & St & Gx).
    rewrite Forall_forall in IH. specialize (IH x I (element_indent i x)). rewrite !write_inline, is_branch_settle, element_indent_deeper.
    destruct IH as (IH & _); [now rewrite St|easy|]. rewrite element_compact in IH. now rewrite IH.
  - destruct G as (_ & G). change (good_members (deeper i) l) in G. pose proof (same_members i (deeper i) l eq_refl G) as W. rewrite (deeper_compact i Ii) in W.
    assert (Fl : Forall (fun x => cfg_mode (t_style x) = false -> good (deeper i) x -> same_body (deeper i) x) l) by (eapply Forall_impl; [|exact IH]; cbn beta; intros x H; apply H).
    specialize (W Fl). unfold same_body. rewrite settle_object. cbn [t_style with_style body]. unfold write_object. split; [|intros last; change (cfg_mode (settled (i =? COMPACT) last st)) with (cfg_mode st); rewrite eol_settled]; rewrite Cf; cbv zeta; rewrite W, ?eol_settled; reflexivity.
Qed.
(** a document that came back is written as the same text *)
Theorem write_again i cfg arr l : good_root i cfg arr l -> json_write (settle (i =? compact_indent) (doc_root cfg arr l)) i = json_write (doc_root cfg arr l) i.
Proof.
  intros G. rewrite settle_root. change compact_indent with COMPACT. unfold json_write. cbn [doc_root t_value t_style].
  assert (A : forall i l, Forall (fun x => cfg_mode (t_style x) = false -> good i x -> same_body i x) l) by (intros; apply Forall_forall; intros x _; apply same_bodies).
  destruct cfg, arr; [destruct G|..]; unfold write_object; cbn [cfg_mode].
  - destruct G as (I & Ne & G).
    assert (D : deeper (i - 4) = i) by (unfold deeper, compact_indent in *; destruct (Z.eqb_spec (i - 4) (-1000)); lia).
    now rewrite (same_members (i - 4) i l D G (A i l)).
  - destruct G as (I & G). rewrite write_nodes_map. erewrite write_nodes_ext; [reflexivity|]. cbn beta. intros x last Ix. destruct (good_elements_in _ _ G x Ix) as (N & St & Gx).
    destruct (same_bodies x (deeper i)) as (B & _); [now rewrite St|easy|]. rewrite (deeper_compact i I) in B. destruct x as [n p st' v]. cbn [t_name t_style] in N, St. subst n st'.
    cbn [settle] in *. rewrite !write_line. now rewrite B.
  - destruct G as (I & G). pose proof (same_members i (deeper i) l eq_refl G (A _ l)) as W. rewrite (deeper_compact i I) in W. now rewrite W.
Qed.
