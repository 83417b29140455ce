(** Proofs about regular expressions: compiling. *)
From Verif Require Import Base CStr Regex RegexSpec.

(** ** the program of an expression *)
Definition class_code (k : class) : Z :=
  match k with White => 1 | NotWhite => 2 | Lower => 6 | Upper => 7 | Word => 8 | NotWord => 9 | HexDigit => 10 | Printable => 11 end.
Definition entry_code (e : entry) : list Z := match e with Char c => [c] | Class k => [0; class_code k] end.
Fixpoint icode (n : nat) (x : item) : list Z :=
  match x with
  | Lit s => EXACT_MATCH :: Z.of_nat (length s) :: s
  | Dot => [ANY]
  | Start => [BEGINNING_OF_LINE]
  | End => [END_OF_LINE]
  | Set_ neg es => (if neg then ANY_BUT else ANY_OF) :: room es :: flat_map entry_code es
  | Esc e => META_MATCH :: entry_code e
  | Group g => BEGIN_CAPTURE :: Z.of_nat n ::
      (fix go n l := match l with [] => [] | x :: r => icode n x ++ go (n + groups x)%nat r end) (S n) g ++ [END_CAPTURE; Z.of_nat n]
  end.
Definition code : nat -> list item -> list Z := fix go n l := match l with [] => [] | x :: r => icode n x ++ go (n + groups x)%nat r end.
Lemma icode_group n g : icode n (Group g) = BEGIN_CAPTURE :: Z.of_nat n :: code (S n) g ++ [END_CAPTURE; Z.of_nat n].
Proof. reflexivity. Qed.
Lemma code_cons n x l : code n (x :: l) = icode n x ++ code (n + groups x) l.
Proof. reflexivity. Qed.
Lemma groups_group g : groups (Group g) = S (group_count g).
Proof. reflexivity. Qed.
Lemma group_count_cons x l : group_count (x :: l) = (groups x + group_count l)%nat.
Proof. reflexivity. Qed.

(** ** access *)
Lemma at_mid (pre : list Z) c post : at_ (pre ++ c :: post) (Z.of_nat (length pre)) = Some c.
Proof. unfold at_. destruct (Z.ltb_spec (Z.of_nat (length pre)) 0); [lia|]. rewrite Nat2Z.id, nth_error_app2, Nat.sub_diag by lia. reflexivity. Qed.
Lemma at_eq p (pre : list Z) c post i : p = pre ++ c :: post -> i = Z.of_nat (length pre) -> at_ p i = Some c.
Proof. intros -> ->. apply at_mid. Qed.
Lemma found_in c l : found c l = true <-> In c l.
Proof. unfold found. rewrite existsb_exists. split; [intros (x & I & E); apply Z.eqb_eq in E; now subst|]. intros I. exists c. split; [easy|apply Z.eqb_refl]. Qed.
Lemma found_no c l : ~ In c l -> found c l = false.
Proof. intros N. apply not_true_iff_false. now rewrite found_in. Qed.
Lemma eqb_no a b : a <> b -> (a =? b) = false.
Proof. apply Z.eqb_neq. Qed.

(** ** emitting *)
Definition emits (r : re) (bs : list Z) (r' : re) : Prop := buf r' = buf r ++ bs /\ capture_count r' = capture_count r /\ can_realloc r' = true.
Lemma reserve_ok r n : can_realloc r = true -> exists r', reserve r n = Some r' /\ emits r [] r'.
Proof.
  intros G. unfold reserve. destruct (buf_len r + n <=? cap r).
  - exists r. split; [easy|]. split; [now rewrite app_nil_r|easy].
  - rewrite G. eexists. split; [reflexivity|]. split; [cbn [buf]; now rewrite app_nil_r|easy].
Qed.
Lemma push_ok : forall vs r, can_realloc r = true -> Forall (fun v => v <= 256) vs -> exists r', push_ops r vs = (r', ReNone) /\ emits r (map (fun v => v mod 256) vs) r'.
Proof.
  induction vs as [|v vs IH]; intros r G F.
  - exists r. split; [easy|]. split; [now rewrite app_nil_r|easy].
  - inversion F; subst. cbn [push_ops]. destruct (Z.ltb_spec 256 v); [lia|]. destruct (IH (with_buf r (buf r ++ [v mod 256])) G ltac:(easy)) as (r' & E & B & C & D).
    exists r'. split; [easy|]. split; [|easy]. rewrite B. cbn [with_buf buf map]. now rewrite <- app_assoc.
Qed.
Lemma emit_ok r vs : can_realloc r = true -> Forall (fun v => v <= 256) vs -> exists r', emit_ops r vs = (r', ReNone) /\ emits r (map (fun v => v mod 256) vs) r'.
Proof.
  intros G F. unfold emit_ops. destruct (reserve_ok r (Z.of_nat (length vs)) G) as (r1 & -> & B1 & C1 & D1). destruct (push_ok vs r1 D1 F) as (r2 & E & B2 & C2 & D2).
  exists r2. split; [easy|]. rewrite app_nil_r in B1. split; [congruence|]. split; congruence.
Qed.
Lemma emit_bytes r vs : can_realloc r = true -> Forall (fun v => 0 <= v < 256) vs -> exists r', emit_ops r vs = (r', ReNone) /\ emits r vs r'.
Proof.
  intros G F. destruct (emit_ok r vs G) as (r' & E & H). { eapply Forall_impl; [|exact F]. cbn beta. lia. }
  exists r'. split; [easy|]. replace vs with (map (fun v => v mod 256) vs); [easy|]. rewrite <- (map_id vs) at 2. apply map_ext_in. intros a I. rewrite Forall_forall in F. apply Z.mod_small. now apply F.
Qed.
Lemma emit_buffer_ok r bs : can_realloc r = true -> exists r', emit_buffer r bs = (r', ReNone) /\ emits r bs r'.
Proof.
  intros G. unfold emit_buffer. destruct (reserve_ok r (Z.of_nat (length bs)) G) as (r1 & -> & B1 & C1 & D1). eexists. split; [reflexivity|].
  rewrite app_nil_r in B1. split; [cbn [with_buf buf]; congruence|easy].
Qed.

(** ** escapes *)
Lemma class_escape k : encode_escape (class_letter k) = Z.shiftl (class_code k) 8 /\ char_is_hex_digit (class_letter k) = false.
Proof. now destruct k. Qed.
Lemma escaped_ok e c : escaped e c -> char_is_hex_digit c = false /\ 0 < c < 256 /\
  match e with Char d => encode_escape c = d /\ 0 < d < 128 | Class k => encode_escape c = Z.shiftl (class_code k) 8 end.
Proof.
  intros H. destruct H as [c I|k| | | |]; try (now vm_compute).
  - unfold metas in I. cbn [In] in I. repeat (destruct I as [<-|I]; [now vm_compute|]). easy.
  - destruct (class_escape k) as (-> & ->). split; [easy|]. split; [destruct k; cbn; lia|easy].
Qed.
Lemma class_emit k : (Z.shiftl (class_code k) 8 =? 0) || (255 <? Z.shiftl (class_code k) 8) = true /\ Z.shiftr (Z.shiftl (class_code k) 8) 8 mod 256 = class_code k.
Proof. now destruct k. Qed.
(** sets *)
Lemma entry_room es : Z.of_nat (length (flat_map entry_code es)) = room es.
Proof. induction es as [|[c|k] es IH]; [easy|..]; cbn [flat_map entry_code room fold_right app length] in *; fold (room es) in *; lia. Qed.
Lemma room_pos es : 0 <= room es.
Proof. rewrite <- entry_room. lia. Qed.
Lemma group_loop_ok es te : entries es te -> forall f p pre post len b, p = pre ++ te ++ 93 :: post -> Z.of_nat (length pre + length te) < len -> (length te < f)%nat ->
  Z.of_nat (length b) + room es < 256 ->
  group_loop f p len (Z.of_nat (length pre)) b = Some (b ++ flat_map entry_code es, inl (Z.of_nat (length pre + length te) + 1)).
Proof.
  induction 1 as [|c es te C N1 N2 H IH|e c es te E H IH]; intros f p pre post len b P L F R; (destruct f as [|f]; [lia|]); cbn [length] in *; cbn [group_loop].
  - destruct (Z.ltb_spec (Z.of_nat (length pre)) len); [|lia]. rewrite (at_eq p pre 93 post) by easy. cbn [obind]. change (93 =? 93) with true. cbn match. rewrite app_nil_r, Nat.add_0_r. reflexivity.
  - destruct (Z.ltb_spec (Z.of_nat (length pre)) len); [|lia]. cbn [app] in P. rewrite (at_eq p pre c (te ++ 93 :: post)) by easy. cbn [obind]. rewrite (eqb_no c 93), (eqb_no c 92) by easy.
    cbn [room fold_right] in R. fold (room es) in R. pose proof (room_pos es). destruct (Z.leb_spec 256 (Z.of_nat (length b))); [lia|].
    specialize (IH f p (pre ++ [c]) post len (b ++ [c])). rewrite !app_length in IH. cbn [length] in IH. replace (Z.of_nat (length pre) + 1) with (Z.of_nat (length pre + 1)) by lia. rewrite IH; try lia; [|now rewrite P, <- app_assoc].
    f_equal. f_equal; [cbn [flat_map entry_code]; now rewrite <- app_assoc|]. f_equal. lia.
  - destruct (escaped_ok e c E) as (Hx & Cr & Ec).
    destruct (Z.ltb_spec (Z.of_nat (length pre)) len); [|lia]. cbn [app] in P. rewrite (at_eq p pre 92 (c :: te ++ 93 :: post)) by easy. cbn [obind]. change (92 =? 93) with false. change (92 =? 92) with true. cbn match.
    assert (Ac : at_ p (Z.of_nat (length pre) + 1) = Some c) by (apply (at_eq p (pre ++ [92]) c (te ++ 93 :: post)); [now rewrite P, <- app_assoc|rewrite app_length; cbn [length]; lia]).
    rewrite Ac. cbn [obind]. rewrite Hx.
    assert (Hh : (if Z.of_nat (length pre) + 1 + 1 <? len then Some false else Some false) = Some false) by now destruct (_ <? _). rewrite Hh. cbn [obind].
    destruct (Z.ltb_spec (Z.of_nat (length pre) + 1) len); [|lia]. pose proof (room_pos es).
    cbn [room fold_right] in R. fold (room es) in R. destruct (Z.leb_spec 256 (Z.of_nat (length b))); [destruct e; lia|].
    replace (Z.of_nat (length pre) + 1 + 1) with (Z.of_nat (length (pre ++ [92; c]))) by (rewrite app_length; cbn [length]; lia).
    destruct e as [d|k].
    + destruct Ec as (-> & Rd). rewrite (eqb_no d 0) by lia. destruct (Z.ltb_spec 255 d); [lia|]. cbn [orb]. rewrite Z.mod_small by lia.
      rewrite (IH f p (pre ++ [92; c]) post len (b ++ [d])); [|now rewrite P, <- app_assoc|rewrite app_length; cbn [length]; lia|lia|rewrite app_length; cbn [length]; lia].
      rewrite !app_length. cbn [length]. f_equal. f_equal; [cbn [flat_map entry_code]; now rewrite <- app_assoc|]. f_equal. lia.
    + rewrite Ec. destruct (class_emit k) as (-> & ->). destruct (Z.leb_spec 256 (Z.of_nat (length b) + 1)); [lia|].
      rewrite (IH f p (pre ++ [92; c]) post len (b ++ [0; class_code k])); [|now rewrite P, <- app_assoc|rewrite app_length; cbn [length]; lia|lia|rewrite app_length; cbn [length]; lia].
      rewrite !app_length. cbn [length]. f_equal. f_equal; [cbn [flat_map entry_code]; now rewrite <- app_assoc|]. f_equal. lia.
Qed.
Lemma parse_group_ok (neg : bool) es te r p pre post len : entries es te -> room es < 128 -> can_realloc r = true -> (neg = false -> forall x, te <> 94 :: x) ->
  p = pre ++ (if neg then [94] else []) ++ te ++ 93 :: post -> Z.of_nat (length pre + length (if neg then [94] else []) + length te) < len ->
  exists r', parse_group r p len (Z.of_nat (length pre)) = Some (r', ReNone, Some (Z.of_nat (length pre + length (if neg then [94] else []) + length te) + 1)) /\
             emits r ((if neg then ANY_BUT else ANY_OF) :: room es :: flat_map entry_code es) r'.
Proof.
  intros E R G Nn P L. unfold parse_group.
  assert (Hc : exists c, at_ p (Z.of_nat (length pre)) = Some c /\ (c =? 94) = neg).
  { destruct neg.
    - exists 94. split; [now apply (at_eq p pre 94 (te ++ 93 :: post))|reflexivity].
    - destruct te as [|c te]; cbn [app] in P.
      + exists 93. split; [now apply (at_eq p pre 93 post)|reflexivity].
      + exists c. split; [now apply (at_eq p pre c (te ++ 93 :: post))|]. apply eqb_no. intros ->. now apply (Nn eq_refl te). }
  destruct Hc as (c & Ha & Hn). rewrite Ha. cbn [obind]. rewrite Hn.
  set (pre' := pre ++ if neg then [94] else []).
  replace (if neg then Z.of_nat (length pre) + 1 else Z.of_nat (length pre)) with (Z.of_nat (length pre')) by (unfold pre'; rewrite app_length; destruct neg; cbn [length]; lia).
  rewrite (group_loop_ok es te E _ p pre' post); [|unfold pre'; now rewrite P, <- app_assoc|unfold pre'; rewrite app_length; lia|unfold pre' in *; lia|cbn [length]; lia]. cbn [obind app].
  pose proof (room_pos es). destruct (emit_bytes r [if neg then ANY_BUT else ANY_OF; Z.of_nat (length (flat_map entry_code es))] G) as (r1 & E1 & B1 & C1 & D1).
  { rewrite entry_room. repeat constructor; try lia; destruct neg; cbv; congruence. }
  rewrite E1. destruct (emit_buffer_ok r1 (flat_map entry_code es) D1) as (r2 & E2 & B2 & C2 & D2). rewrite E2. exists r2. split; [unfold pre'; rewrite app_length; reflexivity|].
  split; [rewrite B2, B1, <- app_assoc, entry_room; reflexivity|]. split; congruence.
Qed.
(** literals *)
Lemma literal_len_ok s : forall t, Forall (fun c => 0 < c < 256 /\ ~ In c metas) s -> (t = [] \/ exists c r, t = c :: r /\ In c metas) -> literal_len (s ++ t) = Z.of_nat (length s).
Proof.
  induction s as [|c s IH]; intros t F T; cbn [app literal_len length].
  - destruct T as [->|(c & r & -> & I)]; [easy|]. cbn [literal_len]. change META_CHARS with metas. apply found_in in I. now rewrite I.
  - inversion F as [|? ? (Hc & Nc) Fs]; subst. change META_CHARS with metas. rewrite found_no by easy. rewrite IH by easy. lia.
Qed.
Lemma spells_head l t : spells l t -> ~ starts_literal l -> t = [] \/ exists c r, t = c :: r /\ In c metas.
Proof. intros H N. destruct H; [now left|destruct (N I)|..]; right; eexists; eexists; (split; [reflexivity|cbn; lia]). Qed.

(** ** the whole expression *)
Definition ends_well (p : list Z) (off len : Z) : Prop := off = len \/ (off < len /\ exists m, at_ p off = Some m /\ In m metas).
Lemma skipn_pre (pre l : list Z) : skipn (length pre) (pre ++ l) = l.
Proof. rewrite skipn_app, skipn_all, Nat.sub_diag. reflexivity. Qed.
Lemma firstn_pre (l r : list Z) : firstn (length l) (l ++ r) = l.
Proof. rewrite firstn_app, Nat.sub_diag, firstn_all, firstn_O. apply app_nil_r. Qed.
Lemma emits_trans a b c x y : emits a x b -> emits b y c -> emits a (x ++ y) c.
Proof. intros (A1 & A2 & A3) (B1 & B2 & B3). split; [rewrite B1, A1; now rewrite <- app_assoc|]. split; congruence. Qed.
Definition grows (r : re) (l : list item) (r' : re) : Prop :=
  buf r' = buf r ++ code (Z.to_nat (capture_count r)) l /\ capture_count r' = capture_count r + Z.of_nat (group_count l) /\ can_realloc r' = true.
Lemma grows_step r x bs r1 l r2 : 0 <= capture_count r -> groups x = O -> icode (Z.to_nat (capture_count r)) x = bs -> emits r bs r1 -> grows r1 l r2 -> grows r (x :: l) r2.
Proof.
  intros P G I (B1 & C1 & D1) (B2 & C2 & D2). rewrite C1 in *. split; [|split]; [|rewrite group_count_cons, G; lia|easy].
  rewrite B2, B1, code_cons, I, G, Nat.add_0_r, <- app_assoc. reflexivity.
Qed.
Lemma bytes_byte s : Forall (fun c => 0 < c < 256 /\ ~ In c metas) s -> Forall (fun v => 0 <= v < 256) s.
Proof. apply Forall_impl. intros; lia. Qed.

Lemma parse_spells l t : spells l t -> forall f r p pre post len level last bb bop, p = pre ++ t ++ post -> Z.of_nat (length pre + length t) <= len -> len <= Z.of_nat (length p) ->
  ends_well p (Z.of_nat (length pre + length t)) len -> 0 <= level -> can_realloc r = true -> 0 <= capture_count r -> capture_count r + Z.of_nat (group_count l) <= 256 -> (length t < f)%nat ->
  exists f' r' last', parse_loop f r p len (Z.of_nat (length pre)) level last bb bop = parse_loop f' r' p len (Z.of_nat (length pre + length t)) level last' bb bop /\
    (f <= f' + length t)%nat /\ grows r l r'.
Proof.
  induction 1 as [|s l t Ns Ls Fs Nl H IH|l t H IH|l t H IH|l t H IH|es te l t E R N H IH|es te l t E R H IH|e c l t E H IH|g tg l t Hg IHg H IH];
    intros f r p pre post len level last bb bop P L1 L2 W Lv G C0 C1 F; (destruct f as [|f]; [lia|]).
  - exists (S f), r, last. cbn [length]. rewrite Nat.add_0_r. split; [easy|]. split; [lia|]. split; [now rewrite app_nil_r|]. cbn [group_count fold_right]. split; [lia|easy].
  - (* literal *)
    rewrite group_count_cons in C1. cbn [groups] in C1. rewrite app_length in *.
    destruct s as [|c s]; [easy|]. assert (Hcn := Forall_inv Fs); destruct Hcn as (Hc & Nc).
    assert (Ac : at_ p (Z.of_nat (length pre)) = Some c) by (apply (at_eq p pre c (s ++ t ++ post)); [now rewrite P, <- app_assoc|easy]).
    set (w := c :: s) in *.
    cbn [parse_loop]. destruct (Z.ltb_spec (Z.of_nat (length pre)) len); [|cbn [w length] in *; unfold w in *; cbn [length] in *; lia]. rewrite Ac. cbn [obind].
    assert (Nm : forall m, In m metas -> (c =? m) = false) by (intros m Im; apply eqb_no; intros ->; now apply Nc).
    rewrite !Nm by (cbn; tauto). cbn [orb].
    replace (Z.to_nat (Z.of_nat (length pre) + 1 - 1)) with (length pre) by lia.
    assert (Sk : skipn (length pre) p = w ++ t ++ post) by (rewrite P, skipn_pre; now rewrite <- app_assoc).
    rewrite Sk.
    assert (Ll : literal_len (firstn (Z.to_nat (len - (Z.of_nat (length pre) + 1 - 1))) (w ++ t ++ post)) = Z.of_nat (length w)).
    { set (q := Z.to_nat (len - (Z.of_nat (length pre) + 1 - 1))). rewrite firstn_app, firstn_all2 by (unfold q; lia). apply literal_len_ok; [easy|].
      destruct (spells_head l t H Nl) as [->|(d & t' & -> & I)].
      - cbn [app]. cbn [length] in W. rewrite Nat.add_0_r in W. destruct W as [W|(W & m & A & Im)].
        + left. replace (q - length w)%nat with O by (unfold q; lia). reflexivity.
        + right. exists m. destruct post as [|d post].
          { cbn [app] in P. rewrite app_nil_r in P. apply (f_equal (@length Z)) in P. rewrite !app_length in P. cbn [length] in P. lia. }
          assert (d = m). { unfold at_ in A. destruct (_ <? 0); [easy|]. rewrite Nat2Z.id in A. rewrite P in A. cbn [app] in A. rewrite app_nil_r in A. rewrite app_assoc, <- app_length, nth_error_app2, Nat.sub_diag in A by lia. cbn in A. congruence. }
          subst d. destruct (q - length w)%nat as [|k] eqn:Eq; [unfold q in Eq; lia|]. cbn [firstn]. eexists. split; [reflexivity|easy].
      - right. cbn [length] in L1. destruct (q - length w)%nat as [|k] eqn:Eq; [unfold q in Eq; lia|]. cbn [app firstn]. eexists; eexists. split; [reflexivity|easy]. }
    rewrite Ll. destruct (emit_bytes r [EXACT_MATCH; Z.of_nat (length w)] G) as (r1 & E1 & M1). { repeat constructor; try lia; cbv; congruence. }
    rewrite E1. rewrite Nat2Z.id, firstn_pre. destruct (emit_buffer_ok r1 w) as (r2 & E2 & M2); [apply M1|]. rewrite E2.
    assert (M : emits r (EXACT_MATCH :: Z.of_nat (length w) :: w) r2) by exact (emits_trans _ _ _ _ _ M1 M2).
    replace (Z.of_nat (length pre) + 1 - 1 + Z.of_nat (length w)) with (Z.of_nat (length (pre ++ w))) by (rewrite app_length; lia).
    destruct M as (Mb & Mc & Mg).
    destruct (IH f r2 p (pre ++ w) post len level (buf_len r) bb bop) as (f' & r' & last' & E' & F' & G'); try easy; try (rewrite ?app_length; lia).
    { now rewrite P, <- !app_assoc. } { rewrite app_length. replace (length pre + length w + length t)%nat with (length pre + (length w + length t))%nat by lia. easy. } { unfold w in *. cbn [length] in *. lia. }
    exists f', r', last'. split; [rewrite E'; f_equal; rewrite app_length; lia|]. split; [unfold w; cbn [length]; lia|]. eapply grows_step; [easy|easy|reflexivity|split; eauto|easy].
  - (* dot *)
    rewrite group_count_cons in C1. cbn [groups] in C1. cbn [length] in *. cbn [app] in P. cbn [parse_loop]. destruct (Z.ltb_spec (Z.of_nat (length pre)) len); [|lia]. rewrite (at_eq p pre 46 (t ++ post)) by easy. cbn [obind]. cbn match.
    destruct (emit_bytes r [ANY] G) as (r1 & E1 & M). { repeat constructor; cbv; congruence. } change (46 =? 94) with false. change (46 =? 36) with false. change (46 =? 40) with false. change (46 =? 41) with false. change (46 =? 91) with false. change (46 =? 124) with false. change (46 =? 46) with true. cbn match. rewrite E1.
    destruct M as (Mb & Mc & Mg). replace (Z.of_nat (length pre) + 1) with (Z.of_nat (length (pre ++ [46]))) by (rewrite app_length; cbn [length]; lia).
    destruct (IH f r1 p (pre ++ [46]) post len level (buf_len r) bb bop) as (f' & r' & last' & E' & F' & G'); try easy; try (rewrite ?app_length; cbn [length]; lia).
    { now rewrite P, <- !app_assoc. } { rewrite app_length. cbn [length]. replace (length pre + 1 + length t)%nat with (length pre + S (length t))%nat by lia. easy. }
    exists f', r', last'. split; [rewrite E'; f_equal; rewrite app_length; cbn [length]; lia|]. split; [lia|]. eapply grows_step; [easy|easy|reflexivity|split; eauto|easy].
  - (* start *)
    rewrite group_count_cons in C1. cbn [groups] in C1. cbn [length] in *. cbn [app] in P. cbn [parse_loop]. destruct (Z.ltb_spec (Z.of_nat (length pre)) len); [|lia]. rewrite (at_eq p pre 94 (t ++ post)) by easy. cbn [obind]. change (94 =? 94) with true. cbn match.
    destruct (emit_bytes r [BEGINNING_OF_LINE] G) as (r1 & E1 & M). { repeat constructor; cbv; congruence. } rewrite E1.
    destruct M as (Mb & Mc & Mg). replace (Z.of_nat (length pre) + 1) with (Z.of_nat (length (pre ++ [94]))) by (rewrite app_length; cbn [length]; lia).
    destruct (IH f r1 p (pre ++ [94]) post len level last bb bop) as (f' & r' & last' & E' & F' & G'); try easy; try (rewrite ?app_length; cbn [length]; lia).
    { now rewrite P, <- !app_assoc. } { rewrite app_length. cbn [length]. replace (length pre + 1 + length t)%nat with (length pre + S (length t))%nat by lia. easy. }
    exists f', r', last'. split; [rewrite E'; f_equal; rewrite app_length; cbn [length]; lia|]. split; [lia|]. eapply grows_step; [easy|easy|reflexivity|split; eauto|easy].
  - (* end *)
    rewrite group_count_cons in C1. cbn [groups] in C1. cbn [length] in *. cbn [app] in P. cbn [parse_loop]. destruct (Z.ltb_spec (Z.of_nat (length pre)) len); [|lia]. rewrite (at_eq p pre 36 (t ++ post)) by easy. cbn [obind]. change (36 =? 94) with false. change (36 =? 36) with true. cbn match.
    destruct (emit_bytes r [END_OF_LINE] G) as (r1 & E1 & M). { repeat constructor; cbv; congruence. } rewrite E1.
    destruct M as (Mb & Mc & Mg). replace (Z.of_nat (length pre) + 1) with (Z.of_nat (length (pre ++ [36]))) by (rewrite app_length; cbn [length]; lia).
    destruct (IH f r1 p (pre ++ [36]) post len level last bb bop) as (f' & r' & last' & E' & F' & G'); try easy; try (rewrite ?app_length; cbn [length]; lia).
    { now rewrite P, <- !app_assoc. } { rewrite app_length. cbn [length]. replace (length pre + 1 + length t)%nat with (length pre + S (length t))%nat by lia. easy. }
    exists f', r', last'. split; [rewrite E'; f_equal; rewrite app_length; cbn [length]; lia|]. split; [lia|]. eapply grows_step; [easy|easy|reflexivity|split; eauto|easy].
  - (* set *)
    rewrite group_count_cons in C1. cbn [groups] in C1. cbn [length] in *. rewrite app_length in *. cbn [length] in *. cbn [app] in P. cbn [parse_loop]. destruct (Z.ltb_spec (Z.of_nat (length pre)) len); [|lia].
    rewrite (at_eq p pre 91 ((te ++ 93 :: t) ++ post)) by easy. cbn [obind].
    change (91 =? 94) with false. change (91 =? 36) with false. change (91 =? 40) with false. change (91 =? 41) with false. change (91 =? 91) with true. cbn match.
    replace (Z.of_nat (length pre) + 1) with (Z.of_nat (length (pre ++ [91]))) by (rewrite app_length; cbn [length]; lia).
    destruct (parse_group_ok false es te r p (pre ++ [91]) (t ++ post) len E R G (fun _ => N)) as (r1 & E1 & M). { cbn [app]. now rewrite P, <- !app_assoc. } { rewrite app_length. cbn [length]. lia. }
    rewrite E1. cbn [obind].
    destruct M as (Mb & Mc & Mg). set (q := pre ++ [91] ++ te ++ [93]).
    assert (Lq : length q = (length pre + S (length te + 1))%nat) by (unfold q; rewrite !app_length; cbn [length]; lia).
    replace (Z.of_nat (length (pre ++ [91]) + length [] + length te) + 1) with (Z.of_nat (length q)) by (rewrite Lq, app_length; cbn [length]; lia).
    destruct (Z.ltb_spec len (Z.of_nat (length q))); [lia|].
    destruct (IH f r1 p q post len level (buf_len r) bb bop) as (f' & r' & last' & E' & F' & G'); try easy; try (rewrite ?Lq; cbn [length]; lia).
    { unfold q. rewrite P. now rewrite <- !app_assoc. } { rewrite Lq. replace (length pre + S (length te + 1) + length t)%nat with (length pre + S (length te + S (length t)))%nat by lia. easy. }
    exists f', r', last'. split; [rewrite E'; f_equal; lia|]. split; [lia|]. eapply grows_step; [easy|easy|reflexivity|split; eauto|easy].
  - (* complement *)
    rewrite group_count_cons in C1. cbn [groups] in C1. cbn [length] in *. rewrite app_length in *. cbn [length] in *. cbn [app] in P. cbn [parse_loop]. destruct (Z.ltb_spec (Z.of_nat (length pre)) len); [|lia].
    rewrite (at_eq p pre 91 (94 :: (te ++ 93 :: t) ++ post)) by easy. cbn [obind].
    change (91 =? 94) with false. change (91 =? 36) with false. change (91 =? 40) with false. change (91 =? 41) with false. change (91 =? 91) with true. cbn match.
    replace (Z.of_nat (length pre) + 1) with (Z.of_nat (length (pre ++ [91]))) by (rewrite app_length; cbn [length]; lia).
    destruct (parse_group_ok true es te r p (pre ++ [91]) (t ++ post) len E R G ltac:(easy)) as (r1 & E1 & M). { cbn [app]. now rewrite P, <- !app_assoc. } { rewrite app_length. cbn [length]. lia. }
    rewrite E1. cbn [obind].
    destruct M as (Mb & Mc & Mg). set (q := pre ++ [91; 94] ++ te ++ [93]).
    assert (Lq : length q = (length pre + S (S (length te + 1)))%nat) by (unfold q; rewrite !app_length; cbn [length]; lia).
    replace (Z.of_nat (length (pre ++ [91]) + length [94] + length te) + 1) with (Z.of_nat (length q)) by (rewrite Lq, app_length; cbn [length]; lia).
    destruct (Z.ltb_spec len (Z.of_nat (length q))); [lia|].
    destruct (IH f r1 p q post len level (buf_len r) bb bop) as (f' & r' & last' & E' & F' & G'); try easy; try (rewrite ?Lq; cbn [length]; lia).
    { unfold q. rewrite P. now rewrite <- !app_assoc. } { rewrite Lq. replace (length pre + S (S (length te + 1)) + length t)%nat with (length pre + S (S (length te + S (length t))))%nat by lia. easy. }
    exists f', r', last'. split; [rewrite E'; f_equal; lia|]. split; [lia|]. eapply grows_step; [easy|easy|reflexivity|split; eauto|easy].
  - (* escape *)
    destruct (escaped_ok e c E) as (Hx & Cr & Ec).
    rewrite group_count_cons in C1. cbn [groups] in C1. cbn [length] in *. cbn [app] in P. cbn [parse_loop]. destruct (Z.ltb_spec (Z.of_nat (length pre)) len); [|lia]. rewrite (at_eq p pre 92 (c :: t ++ post)) by easy. cbn [obind].
    change (92 =? 94) with false. change (92 =? 36) with false. change (92 =? 40) with false. change (92 =? 41) with false. change (92 =? 91) with false. change (92 =? 124) with false. change (92 =? 46) with false. change ((92 =? 42) || (92 =? 43)) with false. change (92 =? 63) with false. change (92 =? 92) with true. cbn match.
    assert (Ac : at_ p (Z.of_nat (length pre) + 1) = Some c) by (apply (at_eq p (pre ++ [92]) c (t ++ post)); [now rewrite P, <- app_assoc|rewrite app_length; cbn [length]; lia]).
    rewrite Ac. cbn [obind]. rewrite Hx.
    assert (Hh : (if Z.of_nat (length pre) + 1 + 1 <? len then Some false else Some false) = Some false) by now destruct (_ <? _). rewrite Hh. cbn [obind].
    destruct (Z.ltb_spec (Z.of_nat (length pre) + 1) len); [|lia].
    assert (Me : exists r1, (let (r1, err) := emit_ops r (if (encode_escape c =? 0) || (255 <? encode_escape c) then [META_MATCH; 0; Z.shiftr (encode_escape c) 8 mod 256] else [META_MATCH; encode_escape c]) in (r1, err)) = (r1, ReNone) /\ emits r (META_MATCH :: entry_code e) r1).
    { destruct e as [d|k].
      - destruct Ec as (-> & Rd). rewrite (eqb_no d 0) by lia. destruct (Z.ltb_spec 255 d); [lia|]. cbn [orb].
        destruct (emit_bytes r [META_MATCH; d] G) as (r1 & E1 & M). { repeat constructor; try lia; cbv; congruence. } exists r1. now rewrite E1.
      - rewrite Ec. destruct (class_emit k) as (-> & ->). destruct (emit_bytes r [META_MATCH; 0; class_code k] G) as (r1 & E1 & M). { destruct k; repeat constructor; try lia; cbv; congruence. } exists r1. now rewrite E1. }
    destruct Me as (r1 & E1 & M).
    destruct M as (Mb & Mc & Mg).
    destruct (IH f r1 p (pre ++ [92; c]) post len level (buf_len r) bb bop) as (f' & r' & last' & E' & F' & G'); try easy; try (rewrite ?app_length; cbn [length]; lia).
    { now rewrite P, <- !app_assoc. } { rewrite app_length. cbn [length]. replace (length pre + 2 + length t)%nat with (length pre + S (S (length t)))%nat by lia. easy. }
    exists f', r', last'. split; [|split; [lia|]; eapply grows_step; [easy|easy|reflexivity|split; eauto|easy]].
    replace (Z.of_nat (length pre) + 1 + 1) with (Z.of_nat (length (pre ++ [92; c]))) by (rewrite app_length; cbn [length]; lia).
    replace (Z.of_nat (length pre + S (S (length t)))) with (Z.of_nat (length (pre ++ [92; c]) + length t)) by (rewrite app_length; cbn [length]; lia).
    destruct ((encode_escape c =? 0) || (255 <? encode_escape c)); destruct (emit_ops r _) as (r2 & err2); injection E1 as -> ->; exact E'.
  - (* group *)
    rewrite group_count_cons, groups_group in C1. cbn [length] in *. rewrite app_length in *. cbn [length] in *. cbn [app] in P. rewrite <- app_assoc in P. cbn [app] in P.
    cbn [parse_loop]. destruct (Z.ltb_spec (Z.of_nat (length pre)) len); [|lia]. rewrite (at_eq p pre 40 (tg ++ 41 :: t ++ post)) by easy. cbn [obind].
    change (40 =? 94) with false. change (40 =? 36) with false. change (40 =? 40) with true. cbn match.
    set (r0 := Re (capture_count r + 1) (buf r) (cap r) (can_realloc r)).
    destruct (emit_bytes r0 [BEGIN_CAPTURE; capture_count r] G) as (r1 & E1 & Mb1 & Mc1 & Mg1). { repeat constructor; try lia; cbv; congruence. } rewrite E1.
    replace (Z.of_nat (length pre) + 1) with (Z.of_nat (length (pre ++ [40]))) by (rewrite app_length; cbn [length]; lia).
    assert (A41 : at_ p (Z.of_nat (length (pre ++ [40]) + length tg)) = Some 41).
    { apply (at_eq p ((pre ++ [40]) ++ tg) 41 (t ++ post)); [now rewrite P, <- !app_assoc|now rewrite !app_length]. }
    cbn [r0 capture_count] in Mc1.
    destruct (IHg f r1 p (pre ++ [40]) (41 :: t ++ post) len (level + 1) (buf_len r1) (buf_len r1) (-1)) as (f1 & r2 & last1 & E2 & F2 & Gr2); try easy; try (rewrite ?app_length; cbn [length]; lia).
    { now rewrite P, <- !app_assoc. } { right. split; [rewrite app_length; cbn [length]; lia|]. exists 41. split; [exact A41|cbn; tauto]. }
    rewrite E2. destruct f1 as [|f1]; [lia|]. cbn [parse_loop].
    destruct (Z.ltb_spec (Z.of_nat (length (pre ++ [40]) + length tg)) len) as [Lt|]; [|rewrite app_length in *; cbn [length] in *; lia].
    rewrite A41. cbn [obind]. change (41 =? 94) with false. change (41 =? 36) with false. change (41 =? 40) with false. change (41 =? 41) with true. cbn match. change (-1 =? -1) with true. cbn match. cbn [obind].
    rewrite (eqb_no (level + 1) 0) by lia. cbn match. cbn [obind].
    replace (Z.of_nat (length (pre ++ [40]) + length tg) + 1 - 1) with (Z.of_nat (length (pre ++ [40]) + length tg)) by lia. rewrite A41. cbn [obind].
    destruct (Z.ltb_spec len (Z.of_nat (length (pre ++ [40]) + length tg) + 1)); [lia|]. cbn [orb negb]. change (negb (41 =? 41)) with false. cbn match.
    destruct Gr2 as (Gb2 & Gc2 & Gg2).
    destruct (emit_bytes (with_buf r2 (buf r2)) [END_CAPTURE; capture_count r] Gg2) as (r3 & E3 & Mb3 & Mc3 & Mg3). { repeat constructor; try lia; cbv; congruence. } rewrite E3.
    cbn [with_buf buf capture_count] in Mb3, Mc3.
    set (q := pre ++ [40] ++ tg ++ [41]). assert (Lq : length q = (length pre + S (length tg + 1))%nat) by (unfold q; rewrite !app_length; cbn [length]; lia).
    replace (Z.of_nat (length (pre ++ [40]) + length tg) + 1) with (Z.of_nat (length q)) by (rewrite Lq, app_length; cbn [length]; lia).
    destruct (IH f r3 p q post len level (buf_len r0) bb bop) as (f' & r' & last' & E' & F' & Gb' & Gc' & Gg'); try easy; try (rewrite ?Lq; cbn [length]; lia).
    { unfold q. rewrite P. now rewrite <- !app_assoc. } { rewrite Lq. replace (length pre + S (length tg + 1) + length t)%nat with (length pre + S (length tg + S (length t)))%nat by lia. easy. }
    exists f', r', last'. split; [rewrite E'; f_equal; lia|]. split; [lia|]. split; [|split; [rewrite group_count_cons, groups_group; lia|easy]].
    rewrite Gb', Mb3, Gb2, Mb1, code_cons, icode_group, groups_group. cbn [r0 buf]. rewrite <- !app_assoc. f_equal. cbn [app]. rewrite Mc1, Z2Nat.id by lia. f_equal. f_equal.
    rewrite <- app_assoc. cbn [app]. replace (Z.to_nat (capture_count r + 1)) with (S (Z.to_nat (capture_count r))) by lia. f_equal. f_equal. f_equal. f_equal. lia.
Qed.
Lemma compile_spells l t f post : spells l t -> Z.of_nat (group_count l) <= 256 -> (length t < f)%nat ->
  exists r, compile f (t ++ post) (Z.of_nat (length t)) = Some (r, ReNone, false) /\ buf r = code 0 l /\ capture_count r = Z.of_nat (group_count l).
Proof.
  intros H G F. unfold compile, parse.
  destruct (parse_spells l t H f (Re 0 [] (Z.of_nat (length t) + 128) true) (t ++ post) [] post (Z.of_nat (length t)) 0 (buf_len (Re 0 [] (Z.of_nat (length t) + 128) true)) (buf_len (Re 0 [] (Z.of_nat (length t) + 128) true)) (-1))
    as (f' & r & last & E & F' & B & C & D); cbn [length Nat.add capture_count can_realloc]; rewrite ?app_length; try lia; try easy.
  { now left. }
  cbn [length Nat.add] in E. change (Z.of_nat 0) with 0 in E. rewrite E. destruct f' as [|f']; [lia|]. cbn [parse_loop]. rewrite Z.ltb_irrefl. cbn [obind]. exists r.
  rewrite Z.eqb_refl. split; [reflexivity|]. cbn [buf capture_count app] in B, C. split; [exact B|lia].
Qed.
