From Verif Require Import Base CStr CStrSpec CStrProofs Num NumSpec NumProofs PropNum Print PrintSpec PrintProofs.

Lemma apply_width_map f m z w t : f 48 = 48 -> f 32 = 32 -> map f (apply_width m z w t) = apply_width m z w (map f t).
Proof.
  intros E1 E2. unfold apply_width. rewrite map_length. set (n := (_ - _)%nat).
  assert (R : map f (repeat (if z then 48 else 32) n) = repeat (if z then 48 else 32) n).
  { induction n as [|n IH]; [easy|]. cbn [repeat map]. rewrite IH. destruct z; congruence. }
  destruct (m || (w <? 0)); rewrite map_app, R; easy.
Qed.
Lemma cut_map f p t : map f (cut p t) = cut p (map f t).
Proof. unfold cut. destruct (p <? 0); [easy|]. symmetry. apply firstn_map. Qed.
Lemma cut_prec p t : cut (prec_of p) t = apply_precision p t.
Proof. now destruct p. Qed.
Lemma width_abs lft z w t : apply_width (lft || (w <? 0)) z (Z.abs w) t = apply_width lft z w t.
Proof. unfold apply_width. rewrite (Z.abs_eq (Z.abs w)) by lia. destruct (Z.ltb_spec (Z.abs w) 0); [lia|]. now rewrite orb_false_r. Qed.
Lemma lower_hex c : char_to_lower c = hex_lower c.
Proof. unfold char_to_lower, hex_lower. destruct (_ && _); [lia|easy]. Qed.
Lemma upper_digits ds : Forall (fun d => 0 <= d < 16) ds -> map char_to_upper (map digit_char ds) = map digit_char ds.
Proof.
  induction 1 as [|d ds Hd H IH]; [easy|]. cbn [map]. rewrite IH. f_equal. unfold char_to_upper, digit_char.
  destruct (Z.ltb_spec d 10), (Z.ltb_spec d 36); try lia; destruct (Z.leb_spec 97 (48 + d)), (Z.leb_spec 97 (65 + (d - 10))); try lia; easy.
Qed.
Lemma sx_range w x : 0 < w -> - 2^(w-1) <= sx w x < 2^(w-1).
Proof.
  intros H. unfold sx. assert (E : 2^w = 2 * 2^(w-1)) by (rewrite <- Z.pow_succ_r by lia; f_equal; lia). pose proof (Z.mod_pos_bound x (2^w) ltac:(apply Z.pow_pos_nonneg; lia)).
  destruct (Z.ltb_spec (x mod 2^w) (2^(w-1))); lia.
Qed.

Definition subject_args (x : subject) : list arg :=
  match x with Str s x => [AStr (Some (s ++ 0 :: x))] | Chr c => [AInt c] | Percent => [] | Repeat c => [AInt c] | Int _ _ v => [AInt v] | Ptr v => [AInt v] end.
Definition subject_cases (x : subject) : bool := match x with Int _ (Ix | IX) _ | Ptr _ => true | _ => false end.
Lemma rep_ok : forall n a old b c, length old = n -> rep_loop n (a ++ old ++ b) (length a) c = Some (a ++ repeat c n ++ b).
Proof.
  induction n as [|n IH]; intros a old b c L; destruct old as [|o old]; try easy. cbn [rep_loop app]. rewrite wr_at. cbn [obind].
  specialize (IH (a ++ [c]) old b c ltac:(now injection L)). rewrite <- !app_assoc in IH. cbn [app] in IH. rewrite app_length in IH. cbn [length] in IH.
  replace (length a + 1)%nat with (S (length a)) in IH by lia. now rewrite IH.
Qed.
Lemma conv_ok x t m z w p fl rest old r remaining va :
  body x t -> flg fl m z (negb (w =? 0)) -> 0 <= w ->
  let text := match x with Repeat c => repeat c (Z.to_nat (Z.max 1 w)) | _ => apply_width m z w (cut p t) end in
  length old = length text -> Z.of_nat (length text) <= remaining -> (subject_cases x = true -> In 0 r) ->
  exists r', (' (fmt, fl) <- get_length (subject_text x ++ rest) fl ;; convert fmt fl w p (old ++ r) remaining (subject_args x ++ va)) =
    Some (text ++ r', Z.of_nat (length text), rest, va) /\ keeps r r'.
Proof.
  intros Bd F Hw text L M HC. pose proof F as (F1 & F2 & F3 & F4 & F5 & F6 & F7 & F8).
  assert (NC : has_case fl = false) by (unfold has_case; now rewrite F5, F6). assert (CF : case_fun fl = fun c => c) by (unfold case_fun; now rewrite F5, F6).
  destruct x as [s xs|c| |c|sm i slot|slot]; cbn [subject_text subject_args body subject_cases app] in *.
  - destruct Bd as (C & ->). unfold get_length. cbn [rd nth_error obind tl]. cbn match. cbn [Z.eqb Pos.eqb]. cbn [obind].
    unfold convert. cbn [rd nth_error obind tl Print.int_conv Z.eqb Pos.eqb orb va_str].
    destruct (print_string_ok old r remaining 0 fl m z w p s xs (conj F1 (conj F2 F3)) Hw C L ltac:(rewrite L; exact M) ltac:(rewrite NC; easy)) as (r' & E & K).
    rewrite E. cbn [obind]. rewrite CF, map_id. exists r'. rewrite L. easy.
  - destruct Bd as (C & ->). unfold get_length. cbn [rd nth_error obind tl]. cbn match. cbn [Z.eqb Pos.eqb]. cbn [obind].
    unfold convert. cbn [rd nth_error obind tl Print.int_conv Z.eqb Pos.eqb orb]. rewrite va_int_ok by lia. cbn [obind]. rewrite u8_id by lia. unfold print_char.
    destruct (print_string_ok old r remaining 0 fl m z w p [c] [] (conj F1 (conj F2 F3)) Hw ltac:(constructor; [lia|constructor]) L ltac:(rewrite L; exact M) ltac:(rewrite NC; easy)) as (r' & E & K).
    cbn [app] in E. rewrite E. cbn [obind]. rewrite CF, map_id. exists r'. rewrite L. easy.
  - subst t. unfold get_length. cbn [rd nth_error obind tl]. cbn match. cbn [Z.eqb Pos.eqb]. cbn [obind].
    unfold convert. cbn [rd nth_error obind tl Print.int_conv Z.eqb Pos.eqb orb]. unfold print_char.
    destruct (print_string_ok old r remaining 0 fl m z w p [37] [] (conj F1 (conj F2 F3)) Hw ltac:(constructor; [lia|constructor]) L ltac:(rewrite L; exact M) ltac:(rewrite NC; easy)) as (r' & E & K).
    cbn [app] in E. rewrite E. cbn [obind]. rewrite CF, map_id. exists r'. rewrite L. easy.
  - destruct Bd as (C & ->). unfold get_length. cbn [rd nth_error obind tl]. cbn match. cbn [Z.eqb Pos.eqb]. cbn [obind].
    unfold convert. cbn [rd nth_error obind tl Print.int_conv Z.eqb Pos.eqb orb]. rewrite va_int_ok by lia. cbn [obind]. rewrite u8_id by lia.
    unfold print_repeated_char. cbn [width]. assert (Er : (if 0 <? w then w else 1) = Z.max 1 w) by (destruct (Z.ltb_spec 0 w); lia). rewrite Er.
    unfold text in *. rewrite repeat_length in *. pose proof (rep_ok (Z.to_nat (Z.max 1 w)) [] old r c L) as E. cbn [app length] in E. rewrite E. cbn [obind].
    exists r. rewrite Z2Nat.id by lia. split; [easy|apply keeps_refl].
  - destruct Bd as (NM & q & N & ->). rewrite <- app_assoc. cbn [app].
    destruct (int_dir sm i rest fl m z (negb (w =? 0)) F) as (fl1 & fl2 & E1 & E2 & FF & E3 & E4 & E5 & E6).
    rewrite E1. cbn [obind]. unfold convert. cbn [rd nth_error obind tl]. rewrite E2, E6, E3. cbn [obind].
    assert (Rx : 2 <= radix i <= 64) by (destruct i; cbn; lia).
    set (v := wrap (is_signed sm i) (bits sm) slot) in *.
    assert (P : exists y, (if negb (is_signed sm i) then print_u64 (old ++ r) remaining (Info (radix i) fl2 w p) v else print_i64 (old ++ r) remaining (Info (radix i) fl2 w p) v) =
              print_string (old ++ r) remaining (Info (radix i) fl2 w p) (Some (q ++ 0 :: y))).
    { destruct (is_signed sm i) eqn:Si; cbn [negb].
      - destruct (i64_text (radix i) v q Rx) as (y & E); [|easy|].
        { unfold v, wrap in *. pose proof (sx_range (bits sm) slot ltac:(destruct sm; cbn; lia)) as S.
          assert (2 ^ (bits sm - 1) <= 2^63) by (apply Z.pow_le_mono_r; destruct sm; cbn; lia). lia. }
        exists y. unfold print_i64. cbn [base]. rewrite E. easy.
      - destruct (u64_text (radix i) v q Rx) as (y & E); [|easy|].
        { unfold v, wrap in *. pose proof (Z.mod_pos_bound slot (2^bits sm) ltac:(apply Z.pow_pos_nonneg; destruct sm; cbn; lia)) as S.
          assert (2 ^ bits sm <= 2^64) by (apply Z.pow_le_mono_r; destruct sm; cbn; lia). lia. }
        exists y. unfold print_u64. cbn [base]. rewrite E. easy. }
    destruct P as (y & ->). pose proof (numeral_cs (radix i) v q Rx N) as Cq.
    assert (T : text = map (case_fun fl2) (apply_width m z w (cut p q))).
    { rewrite E4. unfold text. destruct i; try (now rewrite map_id).
      - rewrite apply_width_map, cut_map by reflexivity. do 2 f_equal. apply map_ext. intros. now rewrite lower_hex.
      - rewrite apply_width_map, cut_map by reflexivity. do 2 f_equal. destruct N as (ds & Cd & _ & ->). rewrite map_app. f_equal.
        + destruct (v <? 0); easy.
        + rewrite upper_digits; [easy|apply Cd]. }
    assert (Lt : length text = length (apply_width m z w (cut p q))) by (rewrite T, map_length; easy).
    destruct (print_string_ok old r remaining (radix i) fl2 m z w p q y FF Hw Cq ltac:(congruence) ltac:(rewrite L; exact M)) as (r' & E & K).
    { rewrite E5. intros X. apply HC. now destruct i. }
    rewrite E. cbn [obind]. rewrite <- T, L. exists r'. easy.
  - destruct Bd as (q & N & ->). unfold get_length. cbn [rd nth_error obind tl]. cbn match. cbn [Z.eqb Pos.eqb]. cbn [obind].
    unfold convert. cbn [rd nth_error obind tl Print.int_conv Z.eqb Pos.eqb orb]. set (fl2 := Z.lor fl _).
    assert (G : get_int fl2 (AInt slot :: va) = Some (slot mod 2^64, va)).
    { unfold get_int, fl2. cbn [va_slot obind]. rewrite has_lor, F4, Z.land_lor_distr_l, F7. reflexivity. }
    rewrite G. cbn [obind]. assert (U : has fl2 FMT_UNSIGNED = true) by (unfold fl2; rewrite has_lor, F4; reflexivity). rewrite U.
    pose proof (Z.mod_pos_bound slot (2^64) ltac:(lia)) as Rg. destruct (u64_text 16 (slot mod 2^64) q ltac:(lia) Rg N) as (y & Ey).
    unfold print_u64. cbn [base]. rewrite Ey. cbn [obind]. pose proof (numeral_cs 16 _ q ltac:(lia) N) as Cq.
    assert (CF2 : case_fun fl2 = char_to_lower) by (unfold case_fun, fl2; rewrite !has_lor, F5, F6; reflexivity).
    assert (T : text = map (case_fun fl2) (apply_width m z w (cut p q))).
    { rewrite CF2. unfold text. rewrite apply_width_map, cut_map by reflexivity. do 2 f_equal. apply map_ext. intros. now rewrite lower_hex. }
    assert (Lt : length text = length (apply_width m z w (cut p q))) by (rewrite T, map_length; easy).
    destruct (print_string_ok old r remaining 16 fl2 m z w p q y) as (r' & E & K); try easy.
    { unfold fl2. rewrite !has_lor, F1, F2, F3. cbn. rewrite !orb_false_r. easy. } { congruence. } { rewrite L. exact M. } { intros _. now apply HC. }
    rewrite E. cbn [obind]. rewrite <- T, L. exists r'. easy.
Qed.

(** * Rounds *)
Definition piece_args (x : piece) : list arg := match x with Lit _ => [] | Dir _ _ w p x => num_args w ++ num_args p ++ subject_args x end.
Lemma subject_head x : exists c q, subject_text x = c :: q /\ ~ (48 <= c <= 57) /\ ~ In c [45; 43; 35; 32; 42; 46; 48].
Proof. destruct x as [s xs|c| |c|sm i slot|slot]; [| | | |destruct sm, i|]; do 2 eexists; (split; [reflexivity|]); cbn; lia. Qed.
Lemma lit_stop fmt remaining t k : (exists r, fmt = 0 :: r \/ fmt = 37 :: r) -> lit_loop fmt remaining t k = Some (fmt, t, k).
Proof. intros (r & [->| ->]); reflexivity. Qed.
Lemma round_dir lft zero w p x text rest a old r remaining va :
  rendered (Dir lft zero w p x) text -> length old = length text -> Z.of_nat (length text) < remaining -> (cases (Dir lft zero w p x) = true -> In 0 r) ->
  exists r', round (piece_text (Dir lft zero w p x) ++ rest, a ++ old ++ r, length a, remaining, piece_args (Dir lft zero w p x) ++ va) =
    Some (rest, (a ++ text) ++ r', length (a ++ text), remaining - Z.of_nat (length text), va) /\ keeps r r'.
Proof.
  intros (GW & GP & t & Bd & T) L M HC. unfold round. cbn [piece_text app]. rewrite lit_stop by eauto. cbn [obind]. unfold rd at 1. cbn [nth_error obind tl].
  change (37 =? 37) with true. cbn match. rewrite <- !app_assoc.
  set (rest3 := subject_text x ++ rest). set (rest2 := (match p with Absent => [] | _ => 46 :: num_text p end) ++ rest3).
  destruct (subject_head x) as (c & q & Ex & Nd & Nc). cbn [In] in Nc.
  assert (E3 : rest3 = c :: q ++ rest) by (unfold rest3; rewrite Ex; easy).
  assert (E2 : exists c2 q2, rest2 = c2 :: q2 /\ ~ (48 <= c2 <= 57) /\ c2 <> 45 /\ c2 <> 42 /\ ~ In c2 [45; 43; 35; 32; 48]).
  { unfold rest2. destruct p; cbn [app]; [|do 2 eexists; split; [reflexivity|cbn; lia]..]. rewrite E3. do 2 eexists. split; [reflexivity|]. cbn [In]. repeat split; lia. }
  destruct E2 as (c2 & q2 & E2 & N21 & N22 & N23 & N24).
  assert (E1 : exists c1 q1, num_text w ++ rest2 = c1 :: q1 /\ ~ In c1 [45; 43; 35; 32; 48]).
  { destruct GW as (Gw & Gw2). destruct w as [|ds|n]; cbn [num_text app].
    - rewrite E2. eauto.
    - destruct Gw2 as (d & q' & -> & Hd). destruct Gw as (Gw & _). inversion Gw; subst. cbn [map app]. do 2 eexists. split; [reflexivity|]. cbn [In]. lia.
    - do 2 eexists. split; [reflexivity|]. cbn [In]. lia. }
  destruct E1 as (c1 & q1 & E1 & N1). rewrite E1. destruct (flags_ok lft zero c1 q1 N1) as (fl & Ef & F). rewrite Ef. cbn [obind]. rewrite <- E1. clear E1 Ef N1.
  cbn [piece_args]. rewrite <- !app_assoc. rewrite E2. destruct (width_ok lft zero w c2 q2 fl (num_args p ++ subject_args x ++ va) GW F N21 N22 N23) as (fl1 & -> & F1). cbn [obind].
  rewrite <- E2. unfold rest2. rewrite E3.
  destruct (prec_ok _ zero _ p c (q ++ rest) fl1 (subject_args x ++ va) GP F1 Nd) as (fl2 & -> & F2); [lia|lia|lia|]. cbn [obind]. rewrite <- E3. unfold rest3.
  rewrite skipn_len, firstn_len. clear E2 E3 N21 N22 N23 N24 F F1 Ex Nd Nc.
  assert (T' : text = match x with Repeat c => repeat c (Z.to_nat (Z.max 1 (Z.abs (value w)))) | _ => apply_width (lft || (value w <? 0)) (zero && no_prec p) (Z.abs (value w)) (cut (prec_of p) t) end).
  { rewrite width_abs, cut_prec. unfold no_prec. destruct x; exact T. }
  assert (F2' : flg fl2 (lft || (value w <? 0)) (zero && no_prec p) (negb (Z.abs (value w) =? 0))).
  { replace (Z.abs (value w) =? 0) with (value w =? 0); [easy|]. destruct (Z.eqb_spec (value w) 0), (Z.eqb_spec (Z.abs (value w)) 0); lia. }
  destruct (conv_ok x t _ _ (Z.abs (value w)) (prec_of p) fl2 rest old r remaining va Bd F2' ltac:(lia)) as (r' & E & K).
  { rewrite L, T'. reflexivity. } { rewrite <- T'. lia. } { intros X. apply HC. destruct x as [| | | |? [] ?|]; easy. }
  rewrite <- T' in E.
  destruct (get_length (subject_text x ++ rest) fl2) as [(fmt', fl')|]; [|easy]. cbn [obind] in E |- *. rewrite E. cbn [obind].
  exists r'. split; [|easy]. destruct (Z.leb_spec remaining (Z.of_nat (length text))); [lia|]. rewrite Nat2Z.id, app_length, <- app_assoc. easy.
Qed.
Lemma lit_ok : forall s fmt remaining a old b, cstring s -> ~ In 37 s -> remaining <> 0 -> length old = length s ->
  lit_loop (s ++ fmt) remaining (a ++ old ++ b) (length a) = lit_loop fmt remaining (a ++ s ++ b) (length a + length s).
Proof.
  induction s as [|c s IH]; intros fmt remaining a old b C N R L; destruct old as [|o old]; try easy.
  - cbn [app length]. now rewrite Nat.add_0_r.
  - inversion C; subst. cbn [app lit_loop]. destruct (Z.eqb_spec c 0); [lia|]. destruct (Z.eqb_spec c 37) as [->|]; [exfalso; apply N; now left|].
    destruct (Z.eqb_spec remaining 0); [easy|]. cbn [negb andb]. rewrite wr_at. cbn [obind].
    specialize (IH fmt remaining (a ++ [c]) old b ltac:(easy) ltac:(intros Q; apply N; now right) R ltac:(now injection L)). rewrite <- !app_assoc in IH. cbn [app] in IH. rewrite app_length in IH. cbn [length] in IH.
    replace (length a + 1)%nat with (S (length a)) in IH by lia. rewrite IH. cbn [length]. f_equal. lia.
Qed.
Lemma round_lit s fmt remaining a old b va : cstring s -> ~ In 37 s -> remaining <> 0 -> length old = length s ->
  round (s ++ fmt, a ++ old ++ b, length a, remaining, va) = round (fmt, (a ++ s) ++ b, length (a ++ s), remaining, va).
Proof. intros. unfold round. rewrite lit_ok by easy. now rewrite app_length, <- app_assoc. Qed.
Lemma round_end x a b remaining va : 0 < remaining -> round (0 :: x, a ++ b, length a, remaining, va) = Some (0 :: x, a ++ b, length a, remaining, va).
Proof.
  intros R. unfold round. rewrite lit_stop by eauto. cbn [obind]. unfold rd at 1. cbn [nth_error obind]. change (0 =? 37) with false. cbn match. cbn [obind].
  unfold get_width. unfold rd at 1. cbn [nth_error obind]. change (0 =? 42) with false. cbn match.
  pose proof (fmt_num_ok [] 0 x ltac:(constructor) ltac:(cbn; lia) ltac:(lia) ltac:(lia)) as E. cbn [map app] in E. rewrite E. cbn [obind]. change (number 10 []) with 0.
  unfold get_precision. unfold rd at 1. cbn [nth_error obind]. change (0 =? 46) with false. cbn match. cbn [obind].
  unfold get_length. unfold rd at 1. cbn [nth_error obind Z.eqb]. unfold convert. unfold rd at 1. cbn [nth_error obind Z.eqb]. unfold Print.int_conv. cbn [Z.eqb orb obind].
  rewrite firstn_skipn. destruct (Z.leb_spec remaining 0); [lia|]. rewrite Z.sub_0_r. change (Z.to_nat 0) with O. now rewrite Nat.add_0_r.
Qed.
Lemma rounds_more : forall n st st' k, rounds n st = Some st' -> rounds (n + k) st = Some st'.
Proof.
  induction n as [|n IH]; intros ((((fmt & buf) & i) & rem) & va) st' k E; cbn [rounds Nat.add] in *.
  - destruct (rd fmt 0) as [c|] eqn:Ec; [|easy]. cbn [obind] in *. destruct k; cbn [rounds]; rewrite Ec; cbn [obind]; destruct (c =? 0); easy.
  - destruct (rd fmt 0) as [c|]; [|easy]. cbn [obind] in *. destruct (c =? 0); [easy|]. destruct (round _) as [s1|]; [|easy]. cbn [obind] in *. now apply IH.
Qed.
Lemma rounds_lit n s fmt remaining a old b va st : cstring s -> ~ In 37 s -> 0 < remaining -> length old = length s ->
  rounds n (fmt, (a ++ s) ++ b, length (a ++ s), remaining, va) = Some st ->
  rounds (length s + n) (s ++ fmt, a ++ old ++ b, length a, remaining, va) = Some st.
Proof.
  intros C N R L E. destruct s as [|c s].
  - destruct old; [|easy]. cbn [app length Nat.add] in *. rewrite app_nil_r in E. easy.
  - pose proof (round_lit (c :: s) fmt remaining a old b va C N ltac:(lia) L) as RL.
    cbn [length Nat.add rounds]. unfold rd at 1. cbn [app nth_error obind]. inversion C; subst. destruct (Z.eqb_spec c 0); [lia|].
    cbn [app] in RL. rewrite RL. clear RL.
    assert (G : exists s1, round (fmt, (a ++ c :: s) ++ b, length (a ++ c :: s), remaining, va) = Some s1 /\ rounds n s1 = Some st).
    { destruct n as [|n]; cbn [rounds] in E.
      - destruct fmt as [|c' fmt']; [easy|]. cbn [rd nth_error obind] in E. destruct (Z.eqb_spec c' 0) as [->|]; [|easy].
        rewrite round_end by easy. eexists. split; [reflexivity|]. exact E.
      - destruct fmt as [|c' fmt']; [easy|]. cbn [rd nth_error obind] in E. destruct (Z.eqb_spec c' 0) as [->|N'].
        + rewrite round_end by easy. eexists. split; [reflexivity|]. cbn [rounds rd nth_error obind]. exact E.
        + destruct (round _) as [s1|]; [|easy]. cbn [obind] in E. exists s1. split; [easy|]. replace (S n) with (n + 1)%nat by lia. now apply rounds_more. }
    destruct G as (s1 & -> & G). cbn [obind]. rewrite Nat.add_comm. now apply rounds_more.
Qed.
Lemma in_keeps n a b : keeps a b -> In 0 (skipn n a) -> In 0 (skipn n b).
Proof.
  intros K. revert n. induction K as [|x y a b E K IH]; intros [|n]; cbn [skipn]; try easy.
  - intros [->|I]; [left; tauto|right; now apply (IH O)].
  - apply IH.
Qed.
Definition text_of (ps : list piece) : list Z := concat (map piece_text ps).
Definition args_of (ps : list piece) : list arg := concat (map piece_args ps).
Lemma rounds_ok x : forall ps texts, Forall2 rendered ps texts -> forall a old r remaining va,
  length old = length (concat texts) -> Z.of_nat (length (concat texts)) < remaining -> (existsb cases ps = true -> In 0 r) ->
  exists r' rem', rounds (length (text_of ps)) (text_of ps ++ 0 :: x, a ++ old ++ r, length a, remaining, args_of ps ++ va) =
    Some (0 :: x, (a ++ concat texts) ++ r', length (a ++ concat texts), rem', va) /\ keeps r r'.
Proof.
  induction 1 as [|p t ps texts Hp Hps IH]; intros a old r remaining va L M HC; cbn [concat map text_of args_of existsb] in *.
  - destruct old; [|easy]. cbn [app length] in *. exists r, remaining. split; [|apply keeps_refl]. rewrite app_nil_r. reflexivity.
  - rewrite app_length in L. destruct (split_at old (length t)) as (o1 & o2 & -> & L1); [lia|]. rewrite !app_length in *. rewrite <- !app_assoc. destruct p as [s|lft zero w p x'].
    + destruct Hp as (C & N & ->). cbn [piece_text piece_args app].
      destruct (IH (a ++ s) o2 r remaining va ltac:(lia) ltac:(lia)) as (r' & rem' & E & K); [intros X; apply HC; exact X|].
      exists r', rem'. split; [|easy]. etransitivity; [apply (rounds_lit _ s _ remaining a o1 (o2 ++ r)); [easy|easy|lia|lia|exact E]|].
      now rewrite <- !app_assoc, !app_length.
    + assert (R : exists r1, round (piece_text (Dir lft zero w p x') ++ concat (map piece_text ps) ++ 0 :: x, a ++ o1 ++ (o2 ++ r), length a, remaining, piece_args (Dir lft zero w p x') ++ concat (map piece_args ps) ++ va) =
         Some (concat (map piece_text ps) ++ 0 :: x, (a ++ t) ++ r1, length (a ++ t), remaining - Z.of_nat (length t), concat (map piece_args ps) ++ va) /\ keeps (o2 ++ r) r1).
      { apply round_dir; try easy; [lia|]. intros X. apply in_or_app. right. apply HC. rewrite X. easy. }
      destruct R as (r1 & R & K1). pose proof (keeps_len _ _ K1) as Lk. rewrite app_length in Lk.
      destruct (split_at r1 (length o2)) as (o2' & r2 & -> & L2); [lia|].
      assert (K2 : keeps r r2).
      { unfold keeps in *. apply Forall2_app_inv_l in K1. destruct K1 as (u & v & Ku & Kv & E). assert (length u = length o2) by (eapply keeps_len; eassumption).
        assert (u = o2' /\ v = r2) as (-> & ->) by (apply app_inj_tail_iff || (apply (f_equal (firstn (length o2))) in E as E1; apply (f_equal (skipn (length o2))) in E as E2; rewrite <- H in E2 at 2; rewrite <- H in E1 at 2; rewrite <- L2 in E1 at 1; rewrite <- L2 in E2 at 1; rewrite ?firstn_len, ?skipn_len in *; easy)). easy. }
      destruct (IH (a ++ t) o2' r2 (remaining - Z.of_nat (length t)) va ltac:(lia) ltac:(lia)) as (r' & rem' & E & K).
      { intros X. apply (in_keeps O _ _ K2). apply HC. rewrite X. now rewrite orb_true_r. }
      exists r', rem'. split; [|eapply keeps_trans; eassumption].
      destruct (length (piece_text (Dir lft zero w p x'))) as [|n] eqn:Ln; [easy|]. cbn [Nat.add rounds].
      assert (Hd : rd (piece_text (Dir lft zero w p x') ++ concat (map piece_text ps) ++ 0 :: x) 0 = Some 37) by reflexivity.
      rewrite Hd. cbn [obind]. change (37 =? 0) with false. cbn match. rewrite R. cbn [obind].
      rewrite Nat.add_comm. apply rounds_more. etransitivity; [exact E|]. now rewrite <- !app_assoc, !app_length.
Qed.
